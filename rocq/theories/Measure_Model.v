(** * SPDM measurement blocks (core/spdm/spdm_measurements.c)

    Modelled: the measurement count, one block, the record of all blocks, its
    length, and the summary hash, down to the bytes in the buffer, over the
    PCR store of core/attestation/pcr_store.c seen as a list of PCRs, each a
    list of measurements (none for an explicit PCR).  What the store returns
    for a measurement is in Pcr_Model; here it is given: raw data, digest,
    value type and whether it belongs to the TCB.  Not modelled: null
    arguments, the same hash engine passed twice, and data changing between
    asking for its length and reading it. *)
From Coq Require Import List NArith Bool Arith.
From Verif Require Import Base.
Import ListNotations.
Local Open Scope nat_scope.

(** What pcr_store_get_measurement_data and pcr_store_hash_measurement_data
    deliver for one measurement (pcr_store.c:672-722). *)
Inductive data := Bytes (l : list N) | NotAvailable | Failed (e : N).

Record meas := mkMeas { m_type : N; m_tcb : bool; m_data : data; m_digest : data }.

Definition store := list (list meas).

Inductive error :=
  | ReservedBlockId | InvalidSequentialId | BufferTooSmall | RawNotAvailable | HashNotPossible
  | UnknownHash | Store (e : N) | Hash (e : N).

(** pcr_store_get_num_total_measurements (pcr_store.c:193-207) through
    spdm_measurements_get_measurement_count (spdm_measurements.c:11-18). *)
Definition measurement_count (s : store) : nat := fold_left (fun n p => n + length p) s 0.

(** pcr_store_get_measurement_type (pcr_store.c:134-168): the measurement
    with a sequential id. *)
Fixpoint by_sequence (s : store) (id : nat) : option meas :=
  match s with
  | [] => None
  | p :: s =>
      if length p =? 0 then by_sequence s id
      else if length p <=? id then by_sequence s (id - length p)
      else nth_error p id
  end.

(** spdm_measurements_get_measurement_type (spdm_measurements.c:28-41). *)
Definition get_type (s : store) (block_id : N) : error + meas :=
  if (block_id =? 0)%N || (block_id =? 255)%N then inl ReservedBlockId
  else match by_sequence s (N.to_nat (block_id - 1)) with
       | None => inl InvalidSequentialId
       | Some m => inr m
       end.

(** spdm_measurements_get_bit_stream_length (spdm_measurements.c:51-62) with
    pcr_store_get_measurement_data_length (pcr_store.c:757-780): no bytes count
    as not available. *)
Definition bit_stream_length (m : meas) : error + nat :=
  match m_data m with
  | Bytes l => if length l =? 0 then inl RawNotAvailable else inr (length l)
  | NotAvailable => inl RawNotAvailable
  | Failed e => inl (Store e)
  end.

(** sizeof (struct spdm_measurements_measurement_block) (spdm_measurements.h:20-36). *)
Definition HEADER : nat := 7.

(** The header of a block (spdm_measurements.c:139-145, spdm_measurements.h:20-36):
    index, specification, size of the measurement, value type with the raw flag
    in its top bit, size of the value.  Fields wrap to their widths. *)
Definition header (block_id : N) (raw : bool) (type : N) (size : nat) : list N :=
  [block_id; 1%N] ++ le16 (N.of_nat (3 + size)) ++
  [(type mod 128 + if raw then 128 else 0)%N] ++ le16 (N.of_nat size).

(** spdm_measurements_build_measurement_block (spdm_measurements.c:81-148) into
    [out], the buffer from where the block goes to its end.  A failure is
    taken to leave the buffer as it was. *)
Definition build_block (block_id : N) (m : meas) (raw : bool) (out : list N) : error + (nat * list N) :=
  if length out <? HEADER then inl BufferTooSmall
  else
    let max_length := length out - HEADER in
    let value :=
      if raw then
        match bit_stream_length m with
        | inl e => inl e
        | inr size =>
            if max_length <? size then inl BufferTooSmall
            else match m_data m with Bytes l => inr l | NotAvailable => inl RawNotAvailable | Failed e => inl (Store e) end
        end
      else
        match m_digest m with
        | Bytes d => if max_length <? length d then inl BufferTooSmall else inr d
        | NotAvailable => inl HashNotPossible
        | Failed e => inl (Store e)
        end in
    match value with
    | inl e => inl e
    | inr v => inr (HEADER + length v, splice out 0 (header block_id raw (m_type m) (length v) ++ v))
    end.

(** spdm_measurements_get_measurement_block (spdm_measurements.c:150-171). *)
Definition get_block (s : store) (block_id : N) (raw : bool) (buf : list N) : error + (nat * list N) :=
  match get_type s block_id with
  | inl e => inl e
  | inr m => build_block block_id m raw buf
  end.

(** spdm_measurements_get_measurement_block_length (spdm_measurements.c:173-190). *)
Definition get_block_length (s : store) (block_id : N) : error + nat :=
  match get_type s block_id with
  | inl e => inl e
  | inr m => match bit_stream_length m with inl e => inl e | inr n => inr (HEADER + n) end
  end.

(** The inner loop of spdm_measurements_get_all_measurement_blocks
    (spdm_measurements.c:214-233): the next block id, the length so far and the
    buffer.  The block id is a uint8_t. *)
Fixpoint pcr_blocks (ms : list meas) (raw : bool) (block_id : N) (total : nat) (buf : list N)
  : error + (N * nat * list N) :=
  match ms with
  | [] => inr (block_id, total, buf)
  | m :: ms =>
      let out := skipn total buf in
      let r := match build_block block_id m raw out with
               | inl RawNotAvailable => build_block block_id m false out
               | r => r
               end in
      match r with
      | inl e => inl e
      | inr (bytes, out) => pcr_blocks ms raw ((block_id + 1) mod 256) (total + bytes) (firstn total buf ++ out)
      end
  end.

(** The outer loop (spdm_measurements.c:211-234). *)
Fixpoint all_blocks (s : store) (raw : bool) (block_id : N) (total : nat) (buf : list N)
  : error + (nat * list N) :=
  match s with
  | [] => inr (total, buf)
  | p :: s =>
      match pcr_blocks p raw block_id total buf with
      | inl e => inl e
      | inr (block_id, total, buf) => all_blocks s raw block_id total buf
      end
  end.

(** spdm_measurements_get_all_measurement_blocks (spdm_measurements.c:192-237). *)
Definition get_all (s : store) (raw : bool) (buf : list N) : error + (nat * list N) := all_blocks s raw 1 0 buf.

(** spdm_measurements_get_all_measurement_blocks_length (spdm_measurements.c:239-288);
    [hash_length] is None for an unknown hash type. *)
Fixpoint pcr_length (ms : list meas) (raw : bool) (hash_length total : nat) : error + nat :=
  match ms with
  | [] => inr total
  | m :: ms =>
      let bytes :=
        if raw then match bit_stream_length m with
                    | inl RawNotAvailable => inr hash_length
                    | r => r
                    end
        else inr hash_length in
      match bytes with
      | inl e => inl e
      | inr n => pcr_length ms raw hash_length (total + (HEADER + n))
      end
  end.

Fixpoint all_length (s : store) (raw : bool) (hash_length total : nat) : error + nat :=
  match s with
  | [] => inr total
  | p :: s =>
      match pcr_length p raw hash_length total with
      | inl e => inl e
      | inr total => all_length s raw hash_length total
      end
  end.

Definition get_all_length (s : store) (raw : bool) (hash_length : option nat) : error + nat :=
  match hash_length with
  | None => inl UnknownHash
  | Some n => all_length s raw n 0
  end.

(** spdm_measurements_update_summary_hash (spdm_measurements.c:349-390): the
    bytes passed to the summary hash.  [block] is the local buffer; its size is
    that of a block with the longest digest. *)
Definition HASH_MAX : nat := 64.

Fixpoint pcr_summary (ms : list meas) (only_tcb : bool) (block_id : N) (block fed : list N)
  : error + (N * list N * list N) :=
  match ms with
  | [] => inr (block_id, block, fed)
  | m :: ms =>
      if negb only_tcb || m_tcb m then
        match build_block block_id m false block with
        | inl e => inl e
        | inr (size, block) =>
            pcr_summary ms only_tcb ((block_id + 1) mod 256) block (fed ++ firstn size block)
        end
      else pcr_summary ms only_tcb ((block_id + 1) mod 256) block fed
  end.

Fixpoint all_summary (s : store) (only_tcb : bool) (block_id : N) (block fed : list N) : error + list N :=
  match s with
  | [] => inr fed
  | p :: s =>
      match pcr_summary p only_tcb block_id block fed with
      | inl e => inl e
      | inr (block_id, block, fed) => all_summary s only_tcb block_id block fed
      end
  end.

(** spdm_measurements_get_measurement_summary_hash (spdm_measurements.c:303-333,
    392-417), with [digest] the summary hash of some bytes and [hash_length] its
    length: the buffer afterwards.  The hash engine is taken not to fail. *)
Definition get_summary (digest : list N -> list N) (hash_length : nat) (s : store) (only_tcb : bool) (buf : list N)
  : error + list N :=
  if length buf <? hash_length then inl BufferTooSmall
  else
    match all_summary s only_tcb 1 (repeat 0%N (HEADER + HASH_MAX)) [] with
    | inl e => inl e
    | inr fed => inr (splice buf 0 (digest fed))
    end.
