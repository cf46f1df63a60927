(** Block storage in flash: core/flash/flash_store_contiguous_blocks.c and
    flash_store_contiguous_blocks_encrypted.c.  The flash device and its faults are those of
    FlashUtil_Model.

    Simplifications: NULL-pointer checks are dropped; memory allocation and the engines for hashing,
    random numbers and encryption succeed.  `size_t`, like `uint32_t`, has 32 bits. *)
From Coq Require Import List NArith Bool Arith.
From Verif Require Import Base Flash_Base FlashUtil_Model FlashUpdater_Model.
Import ListNotations.
Local Open Scope N_scope.

(** The faults of the flash device during one call. *)
Record faults := mk_faults { f_read : N -> bool; f_erase : N -> bool; f_write : N -> option nat }.

Inductive fs_status :=
| FsOk | FsInvalidArg | FsUnsupportedId | FsBadLength | FsTooSmall | FsNoData | FsCorrupt
| FsNotAligned | FsBadBase | FsInsufficient | FsTooLarge | FsFlash (e : futil).

Definition MAX_DATA_SIZE : N := 65535.      (* flash_store_contiguous_blocks.c:16 *)
Definition HEADER_MARKER : N := 165.        (* flash_store_contiguous_blocks.h:25 *)
Definition HEADER_LENGTH : N := 4.          (* flash_store_contiguous_blocks.h:26 *)
Definition HEADER_MIN_LENGTH : N := 4.      (* flash_store_contiguous_blocks.h:27 *)

(** struct flash_store_contiguous_blocks and its state.  [fs_page] is the page size when a page buffer
    was allocated (FLASH_STORE_SUPPORT_NO_PARTIAL_PAGE_WRITE). [fs_sector] is the flash sector size. *)
Record fstore := mk_fs {
  fs_base : N; fs_blocks : N; fs_decreasing : bool; fs_variable : bool;
  fs_max : N; fs_overhead : N; fs_block : N; fs_old_header : bool; fs_page : option N; fs_sector : N
}.

(** flash_store_contiguous_blocks_init_state_common, 602-702 with the length check of
    init_storage_common, 727-733.  [page] is the page size when the device cannot write partial pages. *)
Definition fs_init (base blocks data_length overhead extra : N) (decreasing variable old_header : bool)
  (sector device : N) (page : option N) : fstore + fs_status :=
  if blocks =? 0 then inr FsInvalidArg
  else if MAX_DATA_SIZE <? data_length then inr FsTooLarge
  else if negb (base mod sector =? 0) then inr FsNotAligned
  else if (device <=? base) || (decreasing && (base =? 0)) then inr FsBadBase
  else
    let total := data_length + extra + (if variable then HEADER_LENGTH else 0) in
    let block := if sector <? total then total else sector in
    let block := region_base (block + (sector - 1)) sector in
    if (if decreasing then base <? w32 (block * (blocks - 1))
        else device <? w32 (base + w32 (block * blocks))) then inr FsInsufficient
    else
      let max := if variable then block - HEADER_LENGTH - extra else data_length in
      if variable && (MAX_DATA_SIZE <? max) then inr FsTooLarge
      else
        let buffered :=
          match page with
          | Some p => variable || (negb (extra =? 0) && negb (max mod p =? 0))
          | None => false
          end in
        inl (mk_fs base blocks decreasing variable max overhead block old_header
                   (if buffered then page else None) sector).

(** base_addr +/- id * block_size, 71-75; the sum is a uint32_t. *)
Definition block_addr (s : fstore) (id : N) : N :=
  if fs_decreasing s then w32 (fs_base s + (2 ^ 32 - w32 (id * fs_block s)))
  else w32 (fs_base s + w32 (id * fs_block s)).

(** flash_store_contiguous_blocks_verify_write_params, 29-48. *)
Definition verify_write_params (s : fstore) (id : N) (length : N) : fs_status :=
  if length =? 0 then FsInvalidArg
  else if fs_blocks s <=? id then FsUnsupportedId
  else if negb (fs_variable s) && negb (length =? fs_max s - fs_overhead s) then FsBadLength
  else if fs_max s - fs_overhead s <? length then FsBadLength
  else FsOk.

(** The header in front of variable-length data, flash_store_contiguous_blocks.h 19-23 and 229-243. *)
Definition header_bytes (s : fstore) (length : N) : list N :=
  if negb (fs_variable s) then []
  else if fs_old_header s then le16 length
  else HEADER_LENGTH :: HEADER_MARKER :: le16 length.

(** The flash writes (offset in the block, data) when pages can be written in parts, 205-247. *)
Definition plain_writes (s : fstore) (data extra : list N) : list (N * list N) :=
  let header := header_bytes s (N.of_nat (length data)) in
  let off := N.of_nat (length header) in
  [(off, data)] ++
  (match extra with [] => [] | _ => [(off + N.of_nat (length data), extra)] end) ++
  (if fs_variable s then [(0, header)] else []).

(** The flash writes when every page is written at most once, 84-201, for pages of [p] bytes. *)
Definition buffered_writes (s : fstore) (p : nat) (data extra : list N) : list (N * list N) :=
  let header := header_bytes s (N.of_nat (length data)) in
  let hlen := length header in
  let len := length data in
  let first := (p - hlen)%nat in
  let remain := ((len + hlen) mod p)%nat in
  let write_extra := (p - remain)%nat in
  let middle := if (remain <? len)%nat then (len - remain)%nat else len in
  let '(first, middle, extra_first) :=
    if fs_variable s then
      if (first <? middle)%nat then (first, (middle - first)%nat, false)
      else (middle, 0%nat, (middle <? first)%nat)
    else (0%nat, if (middle <? first)%nat then 0%nat else middle, false) in
  let elen := length extra in
  let '(middle, remain, write_extra) :=
    if (elen =? 0)%nat then ((if extra_first then middle else middle + remain)%nat, 0%nat, 0%nat)
    else (middle, remain, if (elen <? write_extra)%nat then elen else write_extra) in
  let off1 := (first + hlen)%nat in
  let w1 := if (middle =? 0)%nat then [] else [(N.of_nat off1, window first middle data)] in
  let off2 := (off1 + middle)%nat in
  let '(w2, off3) :=
    if negb extra_first && negb (elen =? 0)%nat then
      ([(N.of_nat off2, window (len - remain) remain data ++ firstn write_extra extra)],
       (off2 + (remain + write_extra))%nat)
    else ([], (off2 + write_extra)%nat) in
  let w3 := if (write_extra <? elen)%nat then [(N.of_nat off3, skipn write_extra extra)] else [] in
  let w4 :=
    if (first =? 0)%nat then []
    else [(0, header ++ firstn first data ++ (if extra_first then firstn write_extra extra else []))] in
  w1 ++ w2 ++ w3 ++ w4.

Definition store_writes (s : fstore) (data extra : list N) : list (N * list N) :=
  match fs_page s with
  | Some p => buffered_writes s (N.to_nat p) data extra
  | None => plain_writes s data extra
  end.

(** The sequence of flash_write_and_verify calls: stop at the first error. *)
Fixpoint do_writes (f : faults) (m : image) (a : N) (ws : list (N * list N)) : image * futil :=
  match ws with
  | [] => (m, FuOk)
  | (o, d) :: r =>
    let '(m', st) := program_and_verify (f_read f) (f_erase f) (f_write f) None m (a + o) d in
    match st with FuOk => do_writes f m' a r | e => (m', e) end
  end.

Definition of_futil (e : futil) : fs_status := match e with FuOk => FsOk | e => FsFlash e end.

(** flash_store_contiguous_blocks_write_common, 64-251. *)
Definition write_common (f : faults) (s : fstore) (m : image) (id : N) (data extra : list N)
  : image * fs_status :=
  let a := block_addr s id in
  let '(m1, r) := erase_region (f_erase f) (fs_sector s) m a (N.to_nat (fs_block s)) in
  match r with
  | FuOk => let '(m2, r2) := do_writes f m1 a (store_writes s data extra) in (m2, of_futil r2)
  | e => (m1, FsFlash e)
  end.

(** flash_store_contiguous_blocks_read_header, 299-331; [inl (header_len, length)]. *)
Definition read_header (f : faults) (s : fstore) (m : image) (a : N) : (N * N) + fs_status :=
  if f_read f a then inr (FsFlash FuReadErr)
  else
    let marker := m (a + 1) in
    if negb (marker =? HEADER_MARKER) then
      let old_length := le_value (img_read m a 2) in
      if fs_max s <? old_length then inr FsNoData else inl (2, old_length)
    else
      let header_len := m a in
      let len := le_value (img_read m (a + 2) 2) in
      if (header_len <? HEADER_MIN_LENGTH) || (fs_max s <? len) then inr FsNoData
      else inl (header_len, len).

(** flash_store_contiguous_blocks_read_common, 350-414: [buf_len] is the size of the caller's buffer;
    the result is the data and the extra data behind it. *)
Definition read_common (f : faults) (s : fstore) (m : image) (id : N) (buf_len alignment : N)
  (extra_len : nat) : (list N * list N) + fs_status :=
  if fs_blocks s <=? id then inr FsUnsupportedId
  else if negb (fs_variable s) && (buf_len <? fs_max s) then inr FsTooSmall
  else
    let a := block_addr s id in
    let loc :=
      if fs_variable s then
        match read_header f s m a with
        | inr e => inr e
        | inl (header_len, len) => if buf_len <? len then inr FsTooSmall else inl (a + header_len, len)
        end
      else inl (a, fs_max s) in
    match loc with
    | inr e => inr e
    | inl (da, len) =>
      if negb (alignment =? 0) && negb (len mod alignment =? 0) then inr FsNoData
      else if f_read f da then inr (FsFlash FuReadErr)
      else if negb (extra_len =? 0)%nat && f_read f (da + len) then inr (FsFlash FuReadErr)
      else inl (img_read m da (N.to_nat len), img_read m (da + len) extra_len)
    end.

(** flash_store_contiguous_blocks_get_data_length, 497-530. *)
Definition get_data_length (f : faults) (s : fstore) (m : image) (id : N) : N + fs_status :=
  if fs_blocks s <=? id then inr FsUnsupportedId
  else if fs_variable s then
    match read_header f s m (block_addr s id) with inr e => inr e | inl (_, len) => inl len end
  else inl (fs_max s).

(** flash_store_contiguous_blocks_has_data_stored, 532-551. *)
Definition has_data_stored (f : faults) (s : fstore) (m : image) (id : N) : bool + fs_status :=
  match get_data_length f s m id with
  | inr FsNoData => inl false
  | inr e => inr e
  | inl _ => inl true
  end.

(** flash_store_contiguous_blocks_erase, 456-477. *)
Definition fs_erase (f : faults) (s : fstore) (m : image) (id : N) : image * fs_status :=
  if fs_blocks s <=? id then (m, FsUnsupportedId)
  else
    let '(m', r) := erase_and_verify (f_read f) (f_erase f) (fs_sector s) m (block_addr s id)
                      (N.to_nat (fs_block s)) in
    (m', of_futil r).

(** flash_store_contiguous_blocks_erase_all, 479-495. *)
Definition fs_erase_all (f : faults) (s : fstore) (m : image) : image * fs_status :=
  let offset := if fs_decreasing s then w32 (fs_block s * (fs_blocks s - 1)) else 0 in
  let '(m', r) := erase_and_verify (f_read f) (f_erase f) (fs_sector s) m
                    (w32 (fs_base s + (2 ^ 32 - offset)))
                    (N.to_nat (w32 (fs_block s * fs_blocks s))) in
  (m', of_futil r).

(** The protection added to the data: none, a SHA-256 digest, or encryption with IV and tag. *)
Section Store.
Variable sha : list N -> list N.
Variable encrypt : list N -> list N -> list N * list N.        (* iv, data -> ciphertext, tag *)
Variable decrypt : list N -> list N -> list N -> option (list N). (* iv, ciphertext, tag; None: auth failed *)

Inductive protection := PNone | PHash | PEncrypted.

Definition IV_LENGTH : nat := 12.     (* flash_store_contiguous_blocks_encrypted.c:16 *)
Definition TAG_LENGTH : nat := 16.    (* aes_gcm.h, AES_GCM_TAG_LENGTH *)
Definition HASH_LENGTH : nat := 32.   (* hash.h, SHA256_HASH_LENGTH *)

Definition extra_length (p : protection) : nat :=
  match p with PNone => 0%nat | PHash => HASH_LENGTH | PEncrypted => (IV_LENGTH + TAG_LENGTH)%nat end.

(** flash_store_contiguous_blocks_write_no_hash, 253-266; write_with_hash, 268-288;
    flash_store_contiguous_blocks_encrypted_write, flash_store_contiguous_blocks_encrypted.c 19-62.
    [iv] is the random IV generated for this write. *)
Definition fs_write (p : protection) (f : faults) (s : fstore) (m : image) (id : N) (data iv : list N)
  : image * fs_status :=
  match verify_write_params s id (N.of_nat (length data)) with
  | FsOk =>
    match p with
    | PNone => write_common f s m id data []
    | PHash => write_common f s m id data (sha data)
    | PEncrypted => let '(enc, tag) := encrypt iv data in write_common f s m id enc (iv ++ tag)
    end
  | e => (m, e)
  end.

(** flash_store_contiguous_blocks_read_no_hash, 416-427; read_with_hash, 429-454;
    flash_store_contiguous_blocks_encrypted_read, flash_store_contiguous_blocks_encrypted.c 64-94. *)
Definition fs_read (p : protection) (f : faults) (s : fstore) (m : image) (id : N) (buf_len : N)
  : list N + fs_status :=
  match read_common f s m id buf_len 0 (extra_length p) with
  | inr e => inr e
  | inl (data, extra) =>
    match p with
    | PNone => inl data
    | PHash => if list_eq_dec N.eq_dec (sha data) extra then inl data else inr FsCorrupt
    | PEncrypted =>
      match decrypt (firstn IV_LENGTH extra) data (skipn IV_LENGTH extra) with
      | Some d => inl d
      | None => inr FsCorrupt
      end
    end
  end.

(** Calls that change the store. *)
Inductive fs_op :=
| OWrite (id : N) (data iv : list N)
| OErase (id : N)
| OEraseAll.

Definition fs_step (p : protection) (s : fstore) (m : image) (f : faults) (o : fs_op) : image * fs_status :=
  match o with
  | OWrite id data iv => fs_write p f s m id data iv
  | OErase id => fs_erase f s m id
  | OEraseAll => fs_erase_all f s m
  end.

End Store.
