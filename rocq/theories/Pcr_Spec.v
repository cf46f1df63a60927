(** Specification vocabulary for PCRs: the extend chain, what the measured data of a measurement is, and
    the complete TCG and attestation logs.  Only the data structures of the model are used here. *)
From Coq Require Import List NArith Bool Arith.
From Verif Require Import Base Pcr_Model.
Import ListNotations.

(** The bytes of a [n]-byte little-endian integer. *)
Fixpoint le_bytes (n : nat) (v : N) : list N :=
  match n with O => [] | S k => (v mod 256)%N :: le_bytes k (v / 256)%N end.

(** A measurement digest: the first bytes of the array. *)
Definition digest_of (a : algo) (m : meas) : list N := firstn (hash_len a) (digest m).

(** The PCR after extending digests one by one, starting from zero. *)
Definition extend_chain (H : algo -> list N -> list N) (a : algo) (digests : list (list N)) : list N :=
  fold_left (fun pcr d => H a (pcr ++ d)) digests (repeat 0%N (hash_len a)).

(** Every digest and PCR value is a 64-byte array. *)
Definition meas_ok (m : meas) : Prop := length (digest m) = 64 /\ length (value m) = 64.
Definition bank_ok (b : bank) : Prop := Forall meas_ok (mlist b).
Definition store_ok (s : store) : Prop := Forall bank_ok s.

(** Two banks that differ at most in the recorded PCR values. *)
Definition same_but_value (m m' : meas) : Prop :=
  digest m' = digest m /\ data m' = data m /\ event_type m' = event_type m /\ version m' = version m /\
  f_event m' = f_event m /\ f_version m' = f_version m /\ f_constant m' = f_constant m /\
  dmtf_type m' = dmtf_type m /\ not_tcb m' = not_tcb m.

(** [stored flash d c]: the data source [d] is well formed and its content is [c].  Memory must be at
    least as long as announced, flash regions are not empty, and a callback returns, for any offset and
    length, that window of [c] and the length of [c], or an error. *)
Inductive stored (flash : nat -> image) : mdata -> list N -> Prop :=
| stored_1 : forall v, stored flash (Data1 v) (le_bytes 1 v)
| stored_2 : forall v, stored flash (Data2 v) (le_bytes 2 v)
| stored_4 : forall v, stored flash (Data4 v) (le_bytes 4 v)
| stored_8 : forall v, stored flash (Data8 v) (le_bytes 8 v)
| stored_memory : forall l n, n <= length l -> stored flash (DataMemory (Some l) n) (firstn n l)
| stored_null : stored flash (DataMemory None 0) []
| stored_flash : forall dev a n, 0 < n -> stored flash (DataFlash dev a n) (img_read (flash dev) a n)
| stored_callback : forall get hash c,
    (forall off len, get off len = (inl (window off len c), length c) \/
                     exists e t, get off len = (inr e, t)) ->
    match hash with Some (inl h) => h = c | _ => True end ->
    stored flash (DataCallback get hash) c.

(** What was measured: the event type and the version when they were included, and the data. *)
Definition measured (content : mdata -> list N) (m : meas) : list N :=
  match data m with
  | None => []
  | Some d =>
    (if f_event m then le_bytes 4 (event_type m) else []) ++
    (if f_version m then [version m] else []) ++ content d
  end.

(** All data sources of a bank have the given contents. *)
Definition bank_stored (flash : nat -> image) (content : mdata -> list N) (b : bank) : Prop :=
  forall m d, In m (mlist b) -> data m = Some d -> stored flash d (content d).
Definition store_stored flash content (s : store) : Prop := forall b, In b s -> bank_stored flash content b.

(** A flash read or a callback of a bank can fail. *)
Definition bank_faulty (flash_status : nat -> N -> nat -> N) (b : bank) : Prop :=
  (exists dev a n, flash_status dev a n <> 0%N) \/
  (exists m get h off len e t, In m (mlist b) /\ data m = Some (DataCallback get h) /\
     get off len = (inr e, t)).

(** TCG identifiers of the algorithms and one TCG_PCR_EVENT2 record: PCR, event type, one digest with its
    algorithm, size of the event, event. *)
Definition tcg_alg (a : algo) : N := match a with Sha256 => 11 | Sha384 => 12 | Sha512 => 13 end%N.
Definition tcg_record (content : mdata -> list N) (pcr : nat) (a : algo) (m : meas) : list N :=
  le_bytes 4 (N.of_nat pcr) ++ le_bytes 4 (event_type m) ++ le_bytes 4 1 ++ le_bytes 2 (tcg_alg a) ++
  digest_of a m ++ le_bytes 4 (N.of_nat (length (measured content m))) ++ measured content m.

(** Records of one PCR; a PCR whose single measurement is the PCR itself has none. *)
Definition bank_records (content : mdata -> list N) (pcr : nat) (b : bank) : list N :=
  if explicit b then [] else concat (map (tcg_record content pcr (balgo b)) (mlist b)).
Fixpoint store_records (content : mdata -> list N) (pcr : nat) (s : store) : list N :=
  match s with [] => [] | b :: t => bank_records content pcr b ++ store_records content (S pcr) t end.

(** The first two parts of the log: a TCG_PCR_EVENT of type EV_NO_ACTION whose event is the "Spec ID"
    structure listing the algorithms [algs]. *)
Definition spec_id_event (algs : list algo) : list N :=
  [83;112;101;99;32;73;68;32;69;118;101;110;116;48;51;0]%N ++ le_bytes 4 1 ++ [0;2;0;1]%N ++
  le_bytes 4 (N.of_nat (length algs)) ++
  concat (map (fun a => le_bytes 2 (tcg_alg a) ++ le_bytes 2 (N.of_nat (hash_len a))) algs) ++ [0%N].
Definition no_action_event (algs : list algo) : list N :=
  le_bytes 4 0 ++ le_bytes 4 3 ++ repeat 0%N 20 ++ le_bytes 4 (N.of_nat (length (spec_id_event algs))).
Definition tcg_log (content : mdata -> list N) (algs : list algo) (s : store) : list N :=
  no_action_event algs ++ spec_id_event algs ++ store_records content 0 s.

(** The algorithms in use, each once. *)
Definition algorithms_of (s : store) (algs : list algo) : Prop :=
  NoDup algs /\ forall a, In a algs <-> exists b, In b s /\ balgo b = a.

(** The measurements that appear in the attestation log: PCR, index, bank, measurement, in order. *)
Definition bank_entries (pcr : nat) (b : bank) : list (nat * nat * bank) :=
  if explicit b then [] else map (fun i => (pcr, i, b)) (seq 0 (length (mlist b))).
Fixpoint entries (pcr : nat) (s : store) : list (nat * nat * bank) :=
  match s with [] => [] | b :: t => bank_entries pcr b ++ entries (S pcr) t end.

(** One attestation log entry: marker, entry length, entry number, event type, measurement identifier,
    one digest with its algorithm, and the PCR value after extending this digest. *)
Definition attestation_entry (H : algo -> list N -> list N) (id : nat) (x : nat * nat * bank) : list N :=
  let '(pcr, i, b) := x in
  let a := balgo b in
  let m := nth i (mlist b) meas0 in
  [203%N] ++ le_bytes 2 (N.of_nat (25 + 2 * hash_len a)) ++ le_bytes 4 (N.of_nat id) ++
  le_bytes 4 (event_type m) ++ le_bytes 4 (N.of_nat (256 * pcr + i)) ++ le_bytes 4 1 ++
  le_bytes 2 (tcg_alg a) ++ digest_of a m ++ le_bytes 4 (N.of_nat (hash_len a)) ++
  extend_chain H a (map (digest_of a) (firstn (S i) (mlist b))).
Fixpoint attestation_entries H (id : nat) (l : list (nat * nat * bank)) : list N :=
  match l with [] => [] | x :: t => attestation_entry H id x ++ attestation_entries H (S id) t end.
Definition attestation_log H (s : store) : list N := attestation_entries H 0 (entries 0 s).

(** A read from [off] of [len] bytes of [log] into [buf]: number of bytes and the buffer afterwards. *)
Definition read_result (log : list N) (off len : nat) (buf : list N) : nat * list N :=
  (length (window off len log), splice buf 0 (window off len log)).

(** Calls, each with the status of its hash sessions. *)
Definition run (H : algo -> list N -> list N) (s : store) (calls : list (op * (nat -> N))) : store :=
  fold_left (fun s c => fst (step H (snd c) s (fst c))) calls s.

(** The measurement an operation updates or invalidates. *)
Definition update_target (o : op) : option (nat * nat) :=
  match o with
  | UpdateDigest p i _ | UpdateBuffer p i _ _ | UpdateVersioned p i _ _ _
  | ConstUpdateDigest p i _ | ConstUpdateBuffer p i _ _ | ConstUpdateVersioned p i _ _ _
  | Invalidate p i => Some (p, i)
  | _ => None
  end.
Definition is_constant_update (o : op) : bool :=
  match o with
  | ConstUpdateDigest _ _ _ | ConstUpdateBuffer _ _ _ _ | ConstUpdateVersioned _ _ _ _ _ => true
  | _ => false
  end.

(** Measurement [i] of PCR [p]. *)
Definition measurement (s : store) (p i : nat) : option meas :=
  match nth_error s p with Some b => nth_error (mlist b) i | None => None end.
Definition algorithm (s : store) (p : nat) : option algo := option_map balgo (nth_error s p).

(** The digest an update records when it succeeds on measurement [m]. *)
Definition recorded (H : algo -> list N -> list N) (a : algo) (m : meas) (o : op) : list N :=
  let ev (e : bool) := if e then le_bytes 4 (event_type m) else [] in
  let bytes (b : option (list N)) := match b with Some l => l | None => [] end in
  match o with
  | UpdateDigest _ _ d | ConstUpdateDigest _ _ d => d
  | UpdateBuffer _ _ b e | ConstUpdateBuffer _ _ b e => H a (ev e ++ bytes b)
  | UpdateVersioned _ _ b e v | ConstUpdateVersioned _ _ b e v => H a (ev e ++ [v] ++ bytes b)
  | _ => repeat 0%N (hash_len a)
  end.

(** The version and the flags recorded with it; an invalidation keeps them. *)
Definition recorded_version (m : meas) (o : op) : N :=
  match o with
  | UpdateVersioned _ _ _ _ v | ConstUpdateVersioned _ _ _ _ v => v
  | Invalidate _ _ => version m
  | _ => 0%N
  end.
Definition recorded_event_flag (m : meas) (o : op) : bool :=
  match o with
  | UpdateBuffer _ _ _ e | ConstUpdateBuffer _ _ _ e
  | UpdateVersioned _ _ _ e _ | ConstUpdateVersioned _ _ _ e _ => e
  | Invalidate _ _ => f_event m
  | _ => false
  end.
Definition recorded_version_flag (m : meas) (o : op) : bool :=
  match o with
  | UpdateVersioned _ _ _ _ _ | ConstUpdateVersioned _ _ _ _ _ => true
  | Invalidate _ _ => f_version m
  | _ => false
  end.

(** Nothing but measurement [i] of PCR [p] differs between two stores. *)
Definition only_changed (s s' : store) (p i : nat) : Prop :=
  length s' = length s /\
  (forall q, algorithm s' q = algorithm s q) /\
  (forall q, option_map explicit (nth_error s' q) = option_map explicit (nth_error s q)) /\
  forall q j, (q, j) <> (p, i) -> measurement s' q j = measurement s q j.
