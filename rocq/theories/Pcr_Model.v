(** Model of core/attestation/pcr.c and core/attestation/pcr_store.c: measurements, the computed PCR,
    and the two logs built from them.

    NULL arguments and mutexes are not modelled (every function takes the bank lock around the accesses
    modelled here, so calls are atomic).  A [size_t] is a [nat]; the places where the code lets an
    unsigned subtraction wrap are separate cases.  Return values are counts or an error code. *)
From Coq Require Import List NArith Bool Arith.
From Verif Require Import Base BufferUtil_Model.
Import ListNotations.

(** crypto/hash.h:14-17 and enum hash_type, for the algorithms a PCR accepts (pcr.c:35-47). *)
Inductive algo := Sha256 | Sha384 | Sha512.
Definition hash_len (a : algo) : nat := match a with Sha256 => 32 | Sha384 => 48 | Sha512 => 64 end.
Definition algo_eqb (a b : algo) : bool := hash_len a =? hash_len b.
(** pcr.h:18 *)
Definition MAX_DIGEST : nat := 64.
(** pcr.h:32-34 *)
Definition alg_id (a : algo) : N := match a with Sha256 => 0x0B | Sha384 => 0x0C | Sha512 => 0x0D end%N.

(** pcr.h:238-256, the errors returned by the modelled functions, and those of other modules. *)
Inductive err :=
| InvalidArgument | InvalidIndex | IncorrectDigestLength | SmallOutputBuffer | InvalidPcr
| InvalidSequentialId | ConstantMeasurement | DataNotAvailable | NoHashCallback | InvalidValueType
| HashError (code : N) | FlashError (code : N) | CallbackError (code : N).
Inductive res (A : Type) := Ok (a : A) | Err (e : err) | Wrapped.
Arguments Ok {A} a. Arguments Err {A} e. Arguments Wrapped {A}.

(** pcr_data.h:57-83, struct pcr_measured_data.  Integer values are little-endian in memory.  Memory
    data is a pointer (None is NULL) with a length; flash data names a device, an address and a length;
    a callback is an arbitrary function from offset and length to an error or the bytes written, plus
    the total length it reports, and optionally the bytes it adds to a hash. *)
Inductive mdata :=
| Data1 (v : N) | Data2 (v : N) | Data4 (v : N) | Data8 (v : N)
| DataMemory (buffer : option (list N)) (len : nat)
| DataFlash (device : nat) (addr : N) (len : nat)
| DataCallback (get : nat -> nat -> (list N + N) * nat) (hash : option (list N + N)).

(** pcr.h:75-84, struct pcr_measurement; [digest] and [value] are 64-byte arrays.  measurement_config
    (pcr.h:27-29) is kept as its three flag bits. *)
Record meas := Meas {
  digest : list N; value : list N; data : option mdata; event_type : N; version : N;
  f_event : bool; f_version : bool; f_constant : bool; dmtf_type : N; not_tcb : bool }.

(** pcr.h:90-95, struct pcr_bank *)
Record bank := Bank { mlist : list meas; balgo : algo; explicit : bool }.
Definition store := list bank.

Definition zeros (n : nat) : list N := repeat 0%N n.
Definition meas0 : meas := Meas (zeros MAX_DIGEST) (zeros MAX_DIGEST) None 0 0 false false false 0 false.
Definition bank0 : bank := Bank [] Sha256 false.

Definition set_digest (m : meas) d v fe fv fc :=
  Meas d (value m) (data m) (event_type m) v fe fv fc (dmtf_type m) (not_tcb m).
Definition set_value (m : meas) x :=
  Meas (digest m) x (data m) (event_type m) (version m) (f_event m) (f_version m) (f_constant m)
    (dmtf_type m) (not_tcb m).
Definition set_event (m : meas) x :=
  Meas (digest m) (value m) (data m) x (version m) (f_event m) (f_version m) (f_constant m)
    (dmtf_type m) (not_tcb m).
Definition set_dmtf (m : meas) x b :=
  Meas (digest m) (value m) (data m) (event_type m) (version m) (f_event m) (f_version m) (f_constant m)
    x b.
Definition set_data (m : meas) x :=
  Meas (digest m) (value m) x (event_type m) (version m) (f_event m) (f_version m) (f_constant m)
    (dmtf_type m) (not_tcb m).

Definition get_m (b : bank) (i : nat) : meas := nth i (mlist b) meas0.
Definition put_m (b : bank) (i : nat) (m : meas) : bank := Bank (upd (mlist b) i m) (balgo b) (explicit b).

(** pcr.c:26-73, pcr_init for a supported algorithm. *)
Definition pcr_init (num : nat) (a : algo) : bank :=
  if num =? 0 then Bank [meas0] a true else Bank (repeat meas0 num) a false.
(** pcr.c:96-107, pcr_get_num_measurements: 0 for an explicit PCR. *)
Definition num_measurements (b : bank) : nat := if explicit b then 0 else length (mlist b).
(** pcr_store.c:36-66 *)
Definition store_init (configs : list (nat * algo)) : store := map (fun c => pcr_init (fst c) (snd c)) configs.

(** pcr.c:308-343, pcr_update_digest_common.  [d] is the digest argument, with its length. *)
Definition update_digest_common (b : bank) (i : nat) (d : list N) (fe fv fc : bool) (v : N)
    : bank * res nat :=
  if negb (length d =? hash_len (balgo b)) then (b, Err IncorrectDigestLength)
  else if length (mlist b) <=? i then (b, Err InvalidIndex)
  else if f_constant (get_m b i) then (b, Err ConstantMeasurement)
  else (put_m b i (set_digest (get_m b i) (splice (digest (get_m b i)) 0 d) v fe fv fc), Ok 0).

Section Engine.
  (** The hash engine: the digest of a message for each algorithm, and the status (0 is success) of the
      [k]-th hash session of a call; a failure of start, update or finish is the same for the callers
      modelled here. *)
  Variable H : algo -> list N -> list N.
  Variable hash_status : nat -> N.
  (** Flash devices, and the status of each read. *)
  Variable flash : nat -> image.
  Variable flash_status : nat -> N -> nat -> N.

  (** pcr.c:379-442, pcr_update_buffer_common.  [buf] None is a NULL pointer.  The event type is read
      before the index is checked (400): for an index past the end the bytes read there are arbitrary,
      which does not matter because the digest is then discarded (322-324). *)
  Definition update_buffer_common (b : bank) (i : nat) (buf : option (list N))
      (inc_event inc_version is_const : bool) (v : N) : bank * res nat :=
    let bytes := match buf with Some l => l | None => [] end in
    if negb inc_event && negb inc_version && (length bytes =? 0) then (b, Err InvalidArgument)
    else if negb (hash_status 0 =? 0)%N then (b, Err (HashError (hash_status 0)))
    else
      let msg := (if inc_event then le32 (event_type (get_m b i)) else []) ++
                 (if inc_version then [v] else []) ++ bytes in
      update_digest_common b i (H (balgo b) msg) inc_event inc_version is_const
        (if inc_version then v else 0%N).

  (** pcr.c:355-359, 506-511 *)
  Definition update_digest b i d := update_digest_common b i d false false false 0.
  Definition const_update_digest b i d := update_digest_common b i d false false true 0.
  (** pcr.c:457-493, 527-564 *)
  Definition update_buffer b i buf e := update_buffer_common b i buf e false false 0.
  Definition update_versioned_buffer b i buf e v := update_buffer_common b i buf e true false v.
  Definition const_update_buffer b i buf e := update_buffer_common b i buf e false true 0.
  Definition const_update_versioned_buffer b i buf e v := update_buffer_common b i buf e true true v.

  (** pcr.c:574-603, pcr_invalidate_measurement: the digest array is cleared, nothing else. *)
  Definition invalidate (b : bank) (i : nat) : bank * res nat :=
    if length (mlist b) <=? i then (b, Err InvalidIndex)
    else if f_constant (get_m b i) then (b, Err ConstantMeasurement)
    else
      let m := get_m b i in
      (put_m b i (set_digest m (zeros MAX_DIGEST) (version m) (f_event m) (f_version m) (f_constant m)),
       Ok 0).

  (** pcr.c:171-188 *)
  Definition set_event_type (b : bank) (i : nat) (e : N) : bank * res nat :=
    if length (mlist b) <=? i then (b, Err InvalidIndex)
    else (put_m b i (set_event (get_m b i) e), Ok 0).
  (** pcr.c:225-248; PCR_DMTF_VALUE_TYPE_UNUSED is the number of valid types (pcr.h:48-61). *)
  Definition DMTF_UNUSED : N := 5.
  Definition set_dmtf_type (b : bank) (i : nat) (t : N) (nt : bool) : bank * res nat :=
    if length (mlist b) <=? i then (b, Err InvalidIndex)
    else if (DMTF_UNUSED <=? t)%N then (b, Err InvalidValueType)
    else (put_m b i (set_dmtf (get_m b i) t nt), Ok 0).
  (** pcr.c:768-812; devices and data callbacks are never NULL here. *)
  Definition set_measurement_data (b : bank) (i : nat) (d : option mdata) : bank * res nat :=
    if length (mlist b) <=? i then (b, Err InvalidIndex)
    else (put_m b i (set_data (get_m b i) d), Ok 0).

  (** pcr.c:644-667, the loop of pcr_compute: [k] is the measurement index, [prev] the 64-byte
      accumulator, [n] the number of measurements left, [base] the hash sessions run before in this call.  The digest overwrites the start of [prev]
      (hash->finish with a 64-byte buffer, 660), and all 64 bytes are recorded (665). *)
  Fixpoint compute_loop (base n k : nat) (b : bank) (prev : list N) : bank * list N * option N :=
    match n with
    | O => (b, prev, None)
    | S n' =>
      if negb (hash_status (base + k) =? 0)%N then (b, prev, Some (hash_status (base + k)))
      else
        let hl := hash_len (balgo b) in
        let prev' := splice prev 0 (H (balgo b) (firstn hl prev ++ firstn hl (digest (get_m b k)))) in
        compute_loop base n' (S k) (put_m b k (set_value (get_m b k) prev')) prev'
    end.

  (** pcr.c:621-689, pcr_compute; [out] is the output buffer (None for NULL). *)
  Definition pcr_compute (base : nat) (b : bank) (out : option (list N)) : bank * option (list N) * res nat :=
    let hl := hash_len (balgo b) in
    if match out with Some o => length o <? hl | None => false end
    then (b, out, Err SmallOutputBuffer)
    else if explicit b then
      (b, option_map (fun o => splice o 0 (firstn hl (digest (get_m b 0)))) out, Ok hl)
    else
      match compute_loop base (length (mlist b)) 0 b (zeros MAX_DIGEST) with
      | (b', _, Some e) => (b', out, Err (HashError e))
      | (b', prev, None) => (b', option_map (fun o => splice o 0 (firstn hl prev)) out, Ok hl)
      end.

  (** pcr.c:826-840, pcr_read_measurement_data_bytes: returns the bytes copied. *)
  Definition read_bytes (d : option (list N)) (data_len offset buffer_len : nat) : list N :=
    match d with
    | None => []
    | Some l =>
      if (data_len =? 0) || (buffer_len =? 0) || (data_len - 1 <? offset) then []
      else
        let n := if buffer_len <? data_len - offset then buffer_len else data_len - offset in
        firstn n (skipn offset l)
    end.

  (** pcr.c:885-918: one optional prefix (event type or version) of the measured data.
      Result: bytes produced, remaining offset, remaining length. *)
  Definition prefix_part (inc : bool) (bytes : list N) (offset len : nat) : list N * nat * nat :=
    if inc then
      if offset <? length bytes then
        let r := read_bytes (Some bytes) (length bytes) offset len in (r, 0, len - length r)
      else ([], offset - length bytes, len)
    else ([], offset, len).

  Definition le64 (x : N) : list N := le32 (x mod 4294967296) ++ le32 (x / 4294967296).

  (** pcr.c:920-994: the data itself, from [offset], at most [len] bytes, and the length added to
      *total_len.  For a zero-length flash region [length - 1] and [length - offset] wrap (963-968), so
      any offset above zero reads [len] bytes from beyond the region. *)
  Definition data_part (d : mdata) (offset len : nat) : (list N + err) * nat :=
    match d with
    | Data1 v => (inl (read_bytes (Some [v mod 256]%N) 1 offset len), 1)
    | Data2 v => (inl (read_bytes (Some (le16 v)) 2 offset len), 2)
    | Data4 v => (inl (read_bytes (Some (le32 v)) 4 offset len), 4)
    | Data8 v => (inl (read_bytes (Some (le64 v)) 8 offset len), 8)
    | DataMemory buf n => (inl (read_bytes buf n offset len), n)
    | DataFlash dev a n =>
      let rd k :=
        let st := flash_status dev (a + N.of_nat offset)%N k in
        if (st =? 0)%N then inl (img_read (flash dev) (a + N.of_nat offset) k) else inr (FlashError st) in
      if n =? 0 then (if offset =? 0 then rd 0 else rd len, n)
      else if n - 1 <? offset then (inl [], n)
      else (rd (if len <? n - offset then len else n - offset), n)
    | DataCallback get _ =>
      match get offset len with
      | (inl bytes, t) => (inl bytes, t)
      | (inr e, t) => (inr (CallbackError e), t)
      end
    end.

  (** pcr.c:858-997, pcr_get_measurement_data_internal: bytes written to the buffer and *total_len. *)
  Definition measurement_data (b : bank) (i offset len : nat) : res (list N * nat) :=
    if length (mlist b) <=? i then Err InvalidIndex
    else
      let m := get_m b i in
      match data m with
      | None => Ok ([], 0)
      | Some d =>
        let '(p1, o1, l1) := prefix_part (f_event m) (le32 (event_type m)) offset len in
        let t1 := if f_event m then 4 else 0 in
        let '(p2, o2, l2) := prefix_part (f_version m) [version m] o1 l1 in
        let t2 := if f_version m then 1 else 0 in
        match data_part d o2 l2 with
        | (inl p3, t3) => Ok (p1 ++ p2 ++ p3, t1 + t2 + t3)
        | (inr e, _) => Err e
        end
      end.

  (** pcr.c:1052-1181, pcr_hash_measurement_data: the digest written, for an output buffer of [len]. *)
  Definition hash_measurement_data (b : bank) (i : nat) (ht : algo) (len : nat) : res (list N) :=
    if length (mlist b) <=? i then Err InvalidIndex
    else if len <? hash_len ht then Err SmallOutputBuffer
    else
      let m := get_m b i in
      if algo_eqb ht (balgo b) then Ok (firstn (hash_len ht) (digest m))
      else
        match data m with
        | None => Err DataNotAvailable
        | Some d =>
          if negb (hash_status 0 =? 0)%N then Err (HashError (hash_status 0))
          else
            let pre := (if f_event m then le32 (event_type m) else []) ++
                       (if f_version m then [version m] else []) in
            match d with
            | Data1 v => Ok (H ht (pre ++ [v mod 256]%N))
            | Data2 v => Ok (H ht (pre ++ le16 v))
            | Data4 v => Ok (H ht (pre ++ le32 v))
            | Data8 v => Ok (H ht (pre ++ le64 v))
            | DataMemory buf n =>
              Ok (H ht (pre ++ match buf with Some l => firstn n l | None => [] end))
            | DataFlash dev a n =>
              let st := flash_status dev a n in
              if (st =? 0)%N then Ok (H ht (pre ++ img_read (flash dev) a n)) else Err (FlashError st)
            | DataCallback _ (Some (inl bytes)) => Ok (H ht (pre ++ bytes))
            | DataCallback _ (Some (inr e)) => Err (CallbackError e)
            | DataCallback _ None => Err NoHashCallback
            end
        end.

  (** pcr.h:101-133: the packed event header, digest and event size of one TCG log entry. *)
  Definition tcg_entry (pcr_num : N) (a : algo) (m : meas) (event_size : nat) : list N :=
    le32 pcr_num ++ le32 (event_type m) ++ le32 1 ++ le16 (alg_id a) ++
    firstn (hash_len a) (digest m) ++ le32 (N.of_nat event_size).
  (** sizeof of the same structures *)
  Definition tcg_entry_len (a : algo) : nat := 14 + hash_len a + 4.

  (** State of the copy loops: offset still to skip, position in the output, bytes left, the output
      buffer and *total_len. *)
  Record cstate := CState { c_off : nat; c_pos : nat; c_left : nat; c_buf : list N; c_total : nat }.

  (** pcr.c:1266-1315, the loop of pcr_get_tcg_log; [n] measurements left, [i] the index.  The entry
      header goes in front of the data and is written after it, because the event size is only known
      then.  [offset -= event_size] (1311) wraps when less than [event_size] was left to skip; that is
      harmless when the buffer is full (the loop ends) and is [Wrapped] otherwise. *)
  Fixpoint tcg_loop (n i : nat) (b : bank) (pcr_num : N) (s : cstate) : res cstate :=
    match n with
    | O => Ok s
    | S n' =>
      if c_left s =? 0 then Ok s
      else
        let el := tcg_entry_len (balgo b) in
        let skip := el <=? c_off s in
        let entry_len := Nat.min (el - c_off s) (c_left s) in
        let off1 := if skip then c_off s - el else 0 in
        let pos1 := if skip then c_pos s else c_pos s + entry_len in
        let left1 := if skip then c_left s else c_left s - entry_len in
        match measurement_data b i off1 left1 with
        | Err e => Err e
        | Wrapped => Wrapped
        | Ok (bytes, esize) =>
          let buf1 := splice (c_buf s) pos1 bytes in
          let buf2 :=
            if skip then buf1
            else splice buf1 (c_pos s)
                   (firstn entry_len (skipn (c_off s) (tcg_entry pcr_num (balgo b) (get_m b i) esize))) in
          let pos2 := pos1 + length bytes in
          let left2 := left1 - length bytes in
          let total := c_total s + el + esize in
          if 0 <? length bytes then
            tcg_loop n' (S i) b pcr_num (CState 0 pos2 left2 buf2 total)
          else if esize <=? off1 then
            tcg_loop n' (S i) b pcr_num (CState (off1 - esize) pos2 left2 buf2 total)
          else if left2 =? 0 then Ok (CState 0 pos2 left2 buf2 total)
          else Wrapped
        end
    end.

  (** pcr.c:1197-1326, pcr_get_tcg_log writing at position [pos] of [buf]: final state, where the return
      value is the advance of the position. *)
  Definition pcr_get_tcg_log (b : bank) (pcr_num : N) (offset pos len : nat) (buf : list N) : res cstate :=
    if explicit b then Ok (CState offset pos len buf 0)
    else tcg_loop (length (mlist b)) 0 b pcr_num (CState offset pos len buf 0).

  (** pcr_store.c:1005-1045: the list of algorithms in use, in order of first use. *)
  Fixpoint algos_used (s : store) (seen : list algo) : list algo :=
    match s with
    | [] => seen
    | b :: t => algos_used t (if existsb (algo_eqb (balgo b)) seen then seen else seen ++ [balgo b])
    end.
  (** "Spec ID Event03" and the terminator (pcr.h:42) *)
  Definition tcg_signature : list N :=
    [0x53;0x70;0x65;0x63;0x20;0x49;0x44;0x20;0x45;0x76;0x65;0x6e;0x74;0x30;0x33;0]%N.
  (** pcr.h:157-168, pcr_store.c:990-1048: the log header, cut after the used algorithms and one zero
      byte (vendor_info_size or a byte of the cleared tail). *)
  Definition tcg_header (s : store) : list N :=
    let l := algos_used s [] in
    tcg_signature ++ le32 1 ++ [0; 2; 0; 1]%N ++ le32 (N.of_nat (length l)) ++
    flat_map (fun a => le16 (alg_id a) ++ le16 (N.of_nat (hash_len a))) l ++ [0%N].
  (** pcr.h:138-144, pcr_store.c:1050-1055 *)
  Definition tcg_v1_event (s : store) : list N :=
    le32 0 ++ le32 3 ++ zeros 20 ++ le32 (N.of_nat (length (tcg_header s))).

  (** pcr_store.c:1067-1086: the loop over PCRs.  [measurement_length] larger than the offset wraps. *)
  Fixpoint store_tcg_loop (pcrs : list bank) (i : nat) (off pos rest : nat) (buf : list N)
      : res (nat * list N) :=
    match pcrs with
    | [] => Ok (pos, buf)
    | b :: t =>
      if rest =? 0 then Ok (pos, buf)
      else
        match pcr_get_tcg_log b (N.of_nat i) off pos rest buf with
        | Err e => Err e
        | Wrapped => Wrapped
        | Ok c =>
          let n := c_pos c - pos in
          if n =? 0 then
            if c_total c <=? off then store_tcg_loop t (S i) (off - c_total c) pos rest (c_buf c)
            else Wrapped
          else store_tcg_loop t (S i) 0 (pos + n) (rest - n) (c_buf c)
        end
    end.

  (** pcr_store.c:974-1089, pcr_store_get_tcg_log: bytes returned and the buffer. *)
  Definition store_get_tcg_log (s : store) (offset len : nat) (buf : list N) : res (nat * list N) :=
    let '(off, rest, pos, buf') := copy_segments [tcg_v1_event s; tcg_header s] offset len 0 buf in
    store_tcg_loop s 0 off pos rest buf'.

  (** logging.h: LOGGING_MAGIC_START, and pcr_store.h:36-100: one attestation log entry. *)
  Definition LOG_MAGIC : N := 0xCB.
  Definition att_entry_len (a : algo) : nat := 7 + 14 + hash_len a + 4 + hash_len a.
  (** pcr_store.c:932-944 *)
  Definition att_entry (id : nat) (pcr i : nat) (a : algo) (m : meas) : list N :=
    [LOG_MAGIC] ++ le16 (N.of_nat (att_entry_len a)) ++ le32 (N.of_nat id) ++
    le32 (event_type m) ++ le32 (N.of_nat pcr * 256 + N.of_nat i) ++ le32 1 ++ le16 (alg_id a) ++
    firstn (hash_len a) (digest m) ++ le32 (N.of_nat (hash_len a)) ++ firstn (hash_len a) (value m).

  (** pcr_store.c:930-952: the entries of one PCR. *)
  Fixpoint att_loop (n i id pcr : nat) (b : bank) (off rest pos : nat) (buf : list N)
      : nat * nat * nat * nat * list N :=
    match n with
    | O => (id, off, rest, pos, buf)
    | S n' =>
      if rest =? 0 then (id, off, rest, pos, buf)
      else
        let '(o, l, p, bf) := copy_segments [att_entry id pcr i (balgo b) (get_m b i)] off rest pos buf in
        att_loop n' (S i) (S id) pcr b o l p bf
    end.

  (** pcr_store.c:873-956: the loop over PCRs, [todo] still to visit, computing each one first (one hash
      session for each entry, so [id] sessions have run before).  Result:
      the banks (the computed values are recorded in them), and the position and buffer. *)
  Fixpoint att_store_loop (todo : list bank) (pcr id off rest pos : nat) (buf : list N)
      : list bank * res (nat * list N) :=
    match todo with
    | [] => ([], Ok (pos, buf))
    | b :: t =>
      if rest =? 0 then (b :: t, Ok (pos, buf))
      else if num_measurements b =? 0 then
        let '(t', r) := att_store_loop t (S pcr) id off rest pos buf in (b :: t', r)
      else
        match pcr_compute id b None with
        | (b', _, Err e) => (b' :: t, Err e)
        | (b', _, Wrapped) => (b' :: t, Wrapped)
        | (b', _, Ok _) =>
          let '(id', o, l, p, bf) := att_loop (length (mlist b')) 0 id pcr b' off rest pos buf in
          let '(t', r) := att_store_loop t (S pcr) id' o l p bf in (b' :: t', r)
        end
    end.
  (** pcr_store.c:844-959 *)
  Definition store_get_attestation_log (s : store) (offset len : nat) (buf : list N)
      : store * res (nat * list N) := att_store_loop s 0 0 offset len 0 buf.
  (** pcr_store.c:790-827 *)
  Fixpoint attestation_log_size (s : store) : nat :=
    match s with
    | [] => 0
    | b :: t => num_measurements b * att_entry_len (balgo b) + attestation_log_size t
    end.

  (** pcr_store.c:134-168, pcr_store_get_measurement_type *)
  Fixpoint sequential_loop (s : store) (pcr id : nat) : res (nat * nat) :=
    match s with
    | [] => Err InvalidSequentialId
    | b :: t =>
      if num_measurements b =? 0 then sequential_loop t (S pcr) id
      else if num_measurements b <=? id then sequential_loop t (S pcr) (id - num_measurements b)
      else Ok (pcr, id)
    end.
  Definition get_measurement_type (s : store) (id : nat) : res (nat * nat) := sequential_loop s 0 id.

  (** Calls of the store interface that change it (pcr_store.c:261-305, 367-596, 635-650): the PCR
      number and measurement index are the two bytes of the measurement type. *)
  Inductive op :=
  | UpdateDigest (pcr i : nat) (d : list N)
  | UpdateBuffer (pcr i : nat) (buf : option (list N)) (e : bool)
  | UpdateVersioned (pcr i : nat) (buf : option (list N)) (e : bool) (v : N)
  | ConstUpdateDigest (pcr i : nat) (d : list N)
  | ConstUpdateBuffer (pcr i : nat) (buf : option (list N)) (e : bool)
  | ConstUpdateVersioned (pcr i : nat) (buf : option (list N)) (e : bool) (v : N)
  | Invalidate (pcr i : nat)
  | SetEventType (pcr i : nat) (e : N)
  | SetDmtfType (pcr i : nat) (t : N) (nt : bool)
  | SetData (pcr i : nat) (d : option mdata)
  | Compute (pcr : nat) (out : option (list N))
  | AttestationLog (offset len : nat) (buf : list N).

  Definition on_bank (s : store) (pcr : nat) (f : bank -> bank * res nat) : store * res nat :=
    match nth_error s pcr with
    | None => (s, Err InvalidPcr)
    | Some b => let '(b', r) := f b in (upd s pcr b', r)
    end.

  Definition step (s : store) (o : op) : store * res nat :=
    match o with
    | UpdateDigest p i d => on_bank s p (fun b => update_digest b i d)
    | UpdateBuffer p i buf e => on_bank s p (fun b => update_buffer b i buf e)
    | UpdateVersioned p i buf e v => on_bank s p (fun b => update_versioned_buffer b i buf e v)
    | ConstUpdateDigest p i d => on_bank s p (fun b => const_update_digest b i d)
    | ConstUpdateBuffer p i buf e => on_bank s p (fun b => const_update_buffer b i buf e)
    | ConstUpdateVersioned p i buf e v => on_bank s p (fun b => const_update_versioned_buffer b i buf e v)
    | Invalidate p i => on_bank s p (fun b => invalidate b i)
    | SetEventType p i e => on_bank s p (fun b => set_event_type b i e)
    | SetDmtfType p i t nt => on_bank s p (fun b => set_dmtf_type b i t nt)
    | SetData p i d => on_bank s p (fun b => set_measurement_data b i d)
    | Compute p out => on_bank s p (fun b => let '(b', _, r) := pcr_compute 0 b out in (b', r))
    | AttestationLog off len buf =>
      let '(s', r) := store_get_attestation_log s off len buf in
      (s', match r with Ok (n, _) => Ok n | Err e => Err e | Wrapped => Wrapped end)
    end.
End Engine.
