(** C20, C21, C22, C38: PCRs, constant measurements, logs and measured data. *)
From Coq Require Import List NArith ZArith Lia Bool Arith.
From Verif Require Import Base Pcr_Model Pcr_Spec Pcr_Proofs Pcr_Log_Proofs Pcr_History_Proofs.
Import ListNotations.

(** A small checksum that plays the hash in the examples. *)
Definition toy_hash (a : algo) (msg : list N) : list N :=
  repeat ((fold_left (fun acc b => acc * 3 + b + 1) msg 7) mod 256)%N (hash_len a).
Lemma toy_length : forall a msg, length (toy_hash a msg) = hash_len a.
Proof. intros. apply repeat_length. Qed.
Definition no_fault : nat -> N := fun _ => 0%N.

(** C20: a successful computation returns, and records for every measurement, the chain of extends of the
    digests in order, starting from zero; nothing else in the PCR changes. *)
Theorem C20_computed_pcr_is_extend_chain :
  forall H, (forall a msg, length (H a msg) = hash_len a) ->
  forall hs b out b' out' n, explicit b = false ->
  pcr_compute H hs 0 b (Some out) = (b', Some out', Ok n) ->
  n = hash_len (balgo b) /\
  out' = splice out 0 (extend_chain H (balgo b) (map (digest_of (balgo b)) (mlist b))) /\
  (forall i, i < length (mlist b) -> firstn (hash_len (balgo b)) (value (nth i (mlist b') meas0)) =
     extend_chain H (balgo b) (map (digest_of (balgo b)) (firstn (S i) (mlist b)))) /\
  length (mlist b') = length (mlist b) /\ balgo b' = balgo b /\ explicit b' = explicit b /\
  (forall i, same_but_value (nth i (mlist b) meas0) (nth i (mlist b') meas0)).
Proof.
  intros H HL hs b out b' out' n X C. apply (pcr_compute_spec H HL) in C.
  destruct C as ((S1 & S2 & S3 & S4 & _) & [(e & E & _)|(E & _ & O & V)]); [discriminate|].
  rewrite X in *. cbn [option_map] in O.
  repeat (split; [solve [congruence|auto]|]). exact S4.
Qed.
Print Assumptions C20_computed_pcr_is_extend_chain.

(** C20: the computation succeeds when the hash engine does and the output is large enough; it fails
    otherwise, leaving the output untouched and all digests as they were. *)
Theorem C20_compute_outcome :
  forall H, (forall a msg, length (H a msg) = hash_len a) ->
  forall hs b out b' out' r, pcr_compute H hs 0 b (Some out) = (b', out', r) ->
  (hash_len (balgo b) <= length out -> (forall k, hs k = 0%N) -> r = Ok (hash_len (balgo b))) /\
  (forall e, r = Err e -> out' = Some out /\
     forall i, same_but_value (nth i (mlist b) meas0) (nth i (mlist b') meas0)).
Proof.
  intros H HL hs b out b' out' r C. apply (pcr_compute_spec H HL) in C.
  destruct C as ((S1 & S2 & S3 & S4 & _) & C). split.
  - intros L Z. destruct C as [(e & -> & _ & [(_ & o & E & ?)|(_ & k & _ & _ & NZ)])|(-> & _)]; auto.
    + injection E as <-. lia.
    + specialize (Z (0 + k)). congruence.
  - intros e ->. split; [|exact S4]. destruct C as [(e' & _ & -> & _)|(? & _)]; auto. discriminate.
Qed.
Print Assumptions C20_compute_outcome.

(** C20: a PCR configured without measurements reports its single digest directly. *)
Theorem C20_explicit_pcr :
  forall H hs b out b' out' n, explicit b = true ->
  pcr_compute H hs 0 b (Some out) = (b', Some out', Ok n) ->
  b' = b /\ n = hash_len (balgo b) /\ out' = splice out 0 (digest_of (balgo b) (nth 0 (mlist b) meas0)).
Proof.
  intros H hs b out b' out' n X C. unfold pcr_compute in C. rewrite X in C.
  destruct (length out <? hash_len (balgo b)); [discriminate|].
  cbn [option_map] in C. unfold digest_of. repeat split; try congruence.
  unfold get_m in C. congruence.
Qed.
Print Assumptions C20_explicit_pcr.

(** C20: a successful update or invalidation of a measurement records the new digest (the given one, the
    hash of the given data, or zero), version and flags, and changes nothing else in the store. *)
Theorem C20_update_changes_only_that_digest :
  forall H, (forall a msg, length (H a msg) = hash_len a) ->
  forall hs s o p i s' n, update_target o = Some (p, i) -> step H hs s o = (s', Ok n) ->
  exists a m m', algorithm s p = Some a /\ measurement s p i = Some m /\ measurement s' p i = Some m' /\
    digest_of a m' = recorded H a m o /\ version m' = recorded_version m o /\
    f_event m' = recorded_event_flag m o /\ f_version m' = recorded_version_flag m o /\
    f_constant m' = is_constant_update o /\
    value m' = value m /\ data m' = data m /\ event_type m' = event_type m /\
    dmtf_type m' = dmtf_type m /\ not_tcb m' = not_tcb m /\
    only_changed s s' p i.
Proof.
  intros H HL hs s o p i s' n T E.
  destruct (update_step H hs s o p i T) as [(e & E')|(b & m' & N & L & F & E' & U)];
    rewrite E' in E; [discriminate|]. injection E as <- <-.
  destruct U as (U1 & U2 & U3 & U4 & U5 & U6 & U7 & U8 & U9 & U10 & U11).
  exists (balgo b), (get_m b i), m'.
  split; [unfold algorithm; now rewrite N|].
  split; [unfold measurement; rewrite N; now apply nth_error_nth'|].
  split; [now apply put_measurement|].
  repeat (split; [assumption|]). now apply put_only_changed.
Qed.
Print Assumptions C20_update_changes_only_that_digest.

(** C20: an update, invalidation or configuration call that fails changes nothing. *)
Theorem C20_failed_call_changes_nothing : forall H hs s o s' e,
  (forall p out, o <> Compute p out) -> (forall off len buf, o <> AttestationLog off len buf) ->
  step H hs s o = (s', Err e) -> s' = s.
Proof.
  intros H hs s o s' e NC NL E.
  destruct (update_target o) as [[p i]|] eqn:T.
  - destruct (update_step H hs s o p i T) as [(e' & E')|(b & m' & _ & _ & _ & E' & _)]; congruence.
  - destruct (config_target o) as [[p i]|] eqn:T2.
    + destruct (config_step H hs s o p i T2) as [(e' & E')|(b & m' & _ & _ & E' & _)]; congruence.
    + destruct o; try discriminate; [now destruct (NC pcr out)|now destruct (NL offset len buf)].
Qed.
Print Assumptions C20_failed_call_changes_nothing.

(** C20: the digest of a measurement is the one recorded by the last successful update or invalidation,
    whatever other calls follow (other measurements, computations, log reads, configuration). *)
Theorem C20_last_update_stays :
  forall H, (forall a msg, length (H a msg) = hash_len a) ->
  forall hs s o p i s' n, update_target o = Some (p, i) -> step H hs s o = (s', Ok n) ->
  forall calls, calls_ok calls -> Forall (fun c => update_target (fst c) <> Some (p, i)) calls ->
  exists a m m', algorithm s p = Some a /\ measurement s p i = Some m /\
    measurement (run H s' calls) p i = Some m' /\ digest_of a m' = recorded H a m o.
Proof.
  intros H HL hs s o p i s' n T E calls OK NT.
  destruct (C20_update_changes_only_that_digest H HL hs s o p i s' n T E)
    as (a & m & m1 & A & M & M1 & D & _).
  destruct (run_keeps H HL calls s' p i m1 OK M1 (or_intror NT)) as (m' & M' & S & _).
  exists a, m, m'. repeat (split; [assumption|]). unfold digest_of in *. congruence.
Qed.
Print Assumptions C20_last_update_stays.

Definition ex_store : store := store_init [(3, Sha256); (0, Sha384); (2, Sha512)].
Definition ex_digest : list N := repeat 5%N 32.
Definition ex_calls : list (op * (nat -> N)) :=
  [(UpdateDigest 0 1 ex_digest, no_fault); (UpdateVersioned 0 2 (Some [1;2;3]%N) true 9%N, no_fault);
   (ConstUpdateBuffer 2 0 (Some [4]%N) false, no_fault); (Compute 0 None, no_fault);
   (Invalidate 2 1, no_fault); (AttestationLog 10 4 [0;0;0;0]%N, no_fault)].
Example C20_ex :
  let b := nth 0 (run toy_hash ex_store ex_calls) bank0 in
  explicit b = false /\ length (mlist b) = 3 /\
  (exists b' out, pcr_compute toy_hash no_fault 0 b (Some (repeat 1%N 40)) = (b', Some out, Ok 32) /\
     firstn 32 out <> repeat 0%N 32 /\ skipn 32 out = repeat 1%N 8).
Proof.
  cbv zeta. split; [vm_compute; reflexivity|]. split; [vm_compute; reflexivity|].
  vm_compute. eexists. eexists. split; [reflexivity|]. split; [discriminate|reflexivity].
Qed.
Example C20_update_ex : exists s',
  step toy_hash no_fault ex_store (UpdateVersioned 0 2 (Some [1;2;3]%N) true 9%N) = (s', Ok 0) /\
  step toy_hash no_fault ex_store (UpdateDigest 0 3 ex_digest) = (ex_store, Err InvalidIndex) /\
  step toy_hash (fun _ => 77%N) ex_store (UpdateBuffer 0 0 (Some [1]%N) true) = (ex_store, Err (HashError 77)) /\
  step toy_hash no_fault ex_store (UpdateDigest 0 1 [1;2]%N) = (ex_store, Err IncorrectDigestLength) /\
  calls_ok ex_calls.
Proof.
  eexists. split; [vm_compute; reflexivity|]. split; [vm_compute; reflexivity|].
  split; [vm_compute; reflexivity|]. split; [vm_compute; reflexivity|].
  unfold calls_ok, ex_calls. repeat constructor; intros off len buf E; try discriminate.
  injection E as <- <- <-. auto.
Qed.

(** C21: once a constant update has succeeded, no later history of calls changes the digest, version or
    flags of that measurement, and every later update or invalidation of it reports an error and changes
    nothing. *)
Theorem C21_constant_measurements_never_change :
  forall H, (forall a msg, length (H a msg) = hash_len a) ->
  forall hs s o p i s' n, update_target o = Some (p, i) -> is_constant_update o = true ->
  step H hs s o = (s', Ok n) ->
  exists m, measurement s' p i = Some m /\ f_constant m = true /\
  forall calls, calls_ok calls ->
  exists m', measurement (run H s' calls) p i = Some m' /\
    digest m' = digest m /\ version m' = version m /\ f_event m' = f_event m /\
    f_version m' = f_version m /\ f_constant m' = true /\
    forall hs2 o2, update_target o2 = Some (p, i) ->
      exists e, step H hs2 (run H s' calls) o2 = (run H s' calls, Err e).
Proof.
  intros H HL hs s o p i s' n T C E.
  destruct (C20_update_changes_only_that_digest H HL hs s o p i s' n T E)
    as (a & m0 & m & A & M0 & M & _ & _ & _ & _ & F & _).
  rewrite C in F. exists m. split; auto. split; auto. intros calls OK.
  destruct (run_keeps H HL calls s' p i m OK M (or_introl F)) as (m' & M' & S1 & S2 & S3 & S4 & S5).
  exists m'. split; auto. repeat (split; [congruence|]).
  intros hs2 o2 T2. destruct (update_step H hs2 (run H s' calls) o2 p i T2)
    as [?|(b & m2 & N & L & F2 & _)]; auto.
  destruct (measurement_some _ _ _ _ M') as (b' & N' & _ & _ & G). congruence.
Qed.
Print Assumptions C21_constant_measurements_never_change.

(** C21: for a well-formed update the error says that the measurement is constant. *)
Theorem C21_error_is_constant_measurement : forall H, (forall a msg, length (H a msg) = hash_len a) ->
  forall hs s p i m a, measurement s p i = Some m -> f_constant m = true -> algorithm s p = Some a ->
  (forall d, length d = hash_len a ->
     step H hs s (UpdateDigest p i d) = (s, Err ConstantMeasurement) /\
     step H hs s (ConstUpdateDigest p i d) = (s, Err ConstantMeasurement)) /\
  step H hs s (Invalidate p i) = (s, Err ConstantMeasurement) /\
  (hs 0%nat = 0%N -> forall buf e v,
     step H hs s (UpdateVersioned p i buf e v) = (s, Err ConstantMeasurement) /\
     step H hs s (ConstUpdateVersioned p i buf e v) = (s, Err ConstantMeasurement) /\
     (match buf with Some (_ :: _) => True | _ => e = true end ->
       step H hs s (UpdateBuffer p i buf e) = (s, Err ConstantMeasurement) /\
       step H hs s (ConstUpdateBuffer p i buf e) = (s, Err ConstantMeasurement))).
Proof.
  intros H HL hs s p i m a M F A.
  destruct (measurement_some _ _ _ _ M) as (b & N & _ & L & G).
  unfold algorithm in A. rewrite N in A. injection A as A.
  assert (forall d fe fv fc v, length d = hash_len a ->
            update_digest_common b i d fe fv fc v = (b, Err ConstantMeasurement)) as U.
  { intros d fe fv fc v E. unfold update_digest_common. rewrite A, E, Nat.eqb_refl. cbn [negb].
    destruct (Nat.leb_spec (length (mlist b)) i); [lia|]. rewrite G, F. reflexivity. }
  assert (forall buf fe fv fc v, hs 0%nat = 0%N ->
            (fv = true \/ match buf with Some (_ :: _) => True | _ => fe = true end) ->
            update_buffer_common H hs b i buf fe fv fc v = (b, Err ConstantMeasurement)) as UB.
  { intros buf fe fv fc v Z D. unfold update_buffer_common. rewrite Z, N.eqb_refl. cbn [negb].
    replace (negb fe && negb fv && _) with false.
    - apply U. rewrite HL, A. reflexivity.
    - destruct fe, fv; auto. destruct D as [D|D]; [discriminate|].
      destruct buf as [[|x l]|]; try discriminate. reflexivity. }
  cbn [step]. unfold on_bank. rewrite N.
  unfold update_digest, const_update_digest, update_versioned_buffer, const_update_versioned_buffer,
    update_buffer, const_update_buffer.
  split; [|split].
  - intros d E. rewrite !U by auto. rewrite upd_self by auto. auto.
  - unfold invalidate. destruct (Nat.leb_spec (length (mlist b)) i); [lia|]. rewrite G, F.
    rewrite upd_self by auto. reflexivity.
  - intros Z buf e v. rewrite !UB by auto. rewrite upd_self by auto. split; auto. split; auto.
    intros D. rewrite !UB by auto. rewrite upd_self by auto. auto.
Qed.
Print Assumptions C21_error_is_constant_measurement.

Example C21_ex :
  let s := run toy_hash ex_store ex_calls in
  (exists m, measurement s 2 0 = Some m /\ f_constant m = true) /\
  (exists s', step toy_hash no_fault ex_store (ConstUpdateBuffer 2 0 (Some [4]%N) false) = (s', Ok 0)) /\
  snd (step toy_hash no_fault s (UpdateBuffer 2 0 (Some [5]%N) true)) = Err ConstantMeasurement.
Proof.
  cbv zeta. split; [vm_compute; eexists; split; reflexivity|].
  split; [vm_compute; eexists; reflexivity|]. vm_compute. reflexivity.
Qed.

(** C21, the limit of the property: the event type of a constant measurement can still be changed, and
    with it the log entry. *)
Example C21_event_type_not_frozen :
  let s := run toy_hash ex_store ex_calls in
  let s' := fst (step toy_hash no_fault s (SetEventType 2 0 99%N)) in
  snd (step toy_hash no_fault s (SetEventType 2 0 99%N)) = Ok 0 /\
  option_map event_type (measurement s 2 0) = Some 0%N /\
  option_map event_type (measurement s' 2 0) = Some 99%N.
Proof. vm_compute. auto. Qed.

(** C22: for any configuration and any history of calls, reading the TCG log from any offset with any
    buffer length returns exactly that window of the complete log, unless reading the measured data fails. *)
Theorem C22_tcg_log_window :
  forall H, (forall a msg, length (H a msg) = hash_len a) ->
  forall cfg calls, calls_ok calls ->
  let s := run H (store_init cfg) calls in
  forall flash flash_status content, store_stored flash content s ->
  forall off len buf, len <= length buf ->
  exists algs, algorithms_of s algs /\
  (store_get_tcg_log flash flash_status s off len buf = Ok (read_result (tcg_log content algs s) off len buf) \/
   exists e, store_get_tcg_log flash flash_status s off len buf = Err e /\
     exists b, In b s /\ bank_faulty flash_status b).
Proof.
  intros H HL cfg calls OK s flash fs content ST off len buf B.
  apply store_get_tcg_log_spec; auto.
  destruct (run_shape H HL calls (store_init cfg) OK) as (_ & _ & _ & _ & SO). apply SO, store_init_ok.
Qed.
Print Assumptions C22_tcg_log_window.

(** C22: the same for the attestation log, whose entries carry the extend chain; the stored digests and
    everything else but the recorded values are left alone. *)
Theorem C22_attestation_log_window :
  forall H, (forall a msg, length (H a msg) = hash_len a) ->
  forall hs s off len buf s' r, len <= length buf ->
  store_get_attestation_log H hs s off len buf = (s', r) ->
  (r = Ok (read_result (attestation_log H s) off len buf) \/
   exists k, r = Err (HashError (hs k)) /\ hs k <> 0%N) /\
  (forall p i m, measurement s p i = Some m ->
     exists m', measurement s' p i = Some m' /\ same_but_value m m').
Proof.
  intros H HL hs s off len buf s' r B E.
  destruct (store_get_attestation_log_spec H HL hs s off len buf s' r B E) as [F R].
  split; auto. apply (bank_same_shape s s' F).
Qed.
Print Assumptions C22_attestation_log_window.

(** C22: the reported attestation log size is the length of the complete log. *)
Theorem C22_attestation_log_size :
  forall H, (forall a msg, length (H a msg) = hash_len a) ->
  forall cfg calls, calls_ok calls ->
  let s := run H (store_init cfg) calls in
  attestation_log_size s = length (attestation_log H s).
Proof.
  intros H HL cfg calls OK s. symmetry. apply length_attestation_entries; auto.
  destruct (run_shape H HL calls (store_init cfg) OK) as (_ & _ & _ & _ & SO). apply SO, store_init_ok.
Qed.
Print Assumptions C22_attestation_log_size.

(** C22: sequential identifiers enumerate the measurements in the order of the attestation log. *)
Theorem C22_sequential_identifiers : forall s id,
  get_measurement_type s id =
  match nth_error (entries 0 s) id with Some (p, i, _) => Ok (p, i) | None => Err InvalidSequentialId end.
Proof. intros. apply sequential_loop_spec. Qed.
Print Assumptions C22_sequential_identifiers.

(** C22, C38: reading the measured data of a measurement from any offset gives that window of it, and the
    total length. *)
Theorem C38_measured_data_window : forall flash flash_status content b i off len,
  i < length (mlist b) -> bank_stored flash content b ->
  let c := measured content (nth i (mlist b) meas0) in
  measurement_data flash flash_status b i off len = Ok (window off len c, length c) \/
  exists e, measurement_data flash flash_status b i off len = Err e /\ bank_faulty flash_status b.
Proof. intros. now apply measurement_data_spec. Qed.
Print Assumptions C38_measured_data_window.

(** C38: hashing the measured data with an algorithm other than that of the PCR hashes exactly the bytes
    a reader of the measured data sees; with the algorithm of the PCR it returns the recorded digest. *)
Theorem C38_measured_data_hash : forall H hs flash flash_status content b i ht len d,
  i < length (mlist b) -> bank_stored flash content b ->
  data (nth i (mlist b) meas0) = Some d -> ht <> balgo b -> hash_len ht <= len ->
  match hash_measurement_data H hs flash flash_status b i ht len with
  | Ok r => r = H ht (measured content (nth i (mlist b) meas0))
  | Err _ => hs 0%nat <> 0%N \/ (exists dev a n, flash_status dev a n <> 0%N) \/
             exists get h, d = DataCallback get h /\ forall c, h <> Some (inl c)
  | Wrapped => False
  end.
Proof. intros. now apply hash_measurement_data_spec. Qed.
Print Assumptions C38_measured_data_hash.

Theorem C38_same_algorithm_returns_digest : forall H hs flash flash_status b i len,
  i < length (mlist b) -> hash_len (balgo b) <= len ->
  hash_measurement_data H hs flash flash_status b i (balgo b) len =
    Ok (digest_of (balgo b) (nth i (mlist b) meas0)).
Proof.
  intros H hs flash fs b i len L B. unfold hash_measurement_data.
  destruct (Nat.leb_spec (length (mlist b)) i); [lia|].
  destruct (Nat.ltb_spec len (hash_len (balgo b))); [lia|].
  rewrite (proj2 (algo_eqb_eq _ _) eq_refl). reflexivity.
Qed.
Print Assumptions C38_same_algorithm_returns_digest.

(** C38: when a measurement is updated from a buffer, and that buffer is given as its measured data, the
    recorded digest is the hash of the measured data (as long as the event type stays the same). *)
Theorem C38_digest_matches_measured_data :
  forall H, (forall a msg, length (H a msg) = hash_len a) ->
  forall hs s p i bytes e v s1 n, step H hs s (UpdateVersioned p i (Some bytes) e v) = (s1, Ok n) ->
  forall s2 n2, step H hs s1 (SetData p i (Some (DataMemory (Some bytes) (length bytes)))) = (s2, Ok n2) ->
  exists a m, algorithm s2 p = Some a /\ measurement s2 p i = Some m /\
    digest_of a m = H a (measured (fun _ => bytes) m).
Proof.
  intros H HL hs s p i bytes e v s1 n E s2 n2 E2.
  destruct (C20_update_changes_only_that_digest H HL hs s (UpdateVersioned p i (Some bytes) e v) p i s1 n eq_refl E)
    as (a & m & m1 & A & M & M1 & D & V & FE & FV & _ & _ & _ & EV & _ & _ & OC).
  cbn [recorded recorded_version recorded_event_flag recorded_version_flag] in *.
  destruct (measurement_some _ _ _ _ M1) as (b & N & _ & L & G).
  cbn [step] in E2. unfold on_bank in E2. rewrite N in E2. unfold set_measurement_data in E2.
  destruct (Nat.leb_spec (length (mlist b)) i); [lia|]. injection E2 as <- <-.
  destruct (put_only_changed s1 p b i (set_data (get_m b i) (Some (DataMemory (Some bytes) (length bytes)))) N)
    as (_ & A2 & _).
  exists a. eexists. split; [rewrite A2; destruct OC as (_ & A1 & _); rewrite A1; exact A|].
  split; [apply put_measurement; auto|].
  rewrite G. unfold digest_of in *. unfold measured. cbn [set_data digest data f_event f_version event_type version].
  rewrite D, FE, FV, EV, V. reflexivity.
Qed.
Print Assumptions C38_digest_matches_measured_data.

Definition ex_flash (dev : nat) : image := fun a => ((a + N.of_nat dev) mod 256)%N.
Definition ex_data : list (op * (nat -> N)) := ex_calls ++
  [(SetData 0 0 (Some (DataFlash 1 16 5)), no_fault);
   (SetData 0 2 (Some (DataMemory (Some [1;2;3]%N) 3)), no_fault);
   (SetData 2 0 (Some (Data4 0x01020304%N)), no_fault);
   (SetData 2 1 (Some (DataCallback (fun off len => (inl (window off len [8;9]%N), 2)) None)), no_fault)].
Definition ex_content (d : mdata) : list N :=
  match d with
  | DataFlash dev a n => img_read (ex_flash dev) a n
  | DataMemory (Some l) n => firstn n l
  | Data1 v => le_bytes 1 v | Data2 v => le_bytes 2 v | Data4 v => le_bytes 4 v | Data8 v => le_bytes 8 v
  | DataCallback _ _ => [8;9]%N
  | _ => []
  end.
Lemma ex_stored : store_stored ex_flash ex_content (run toy_hash ex_store ex_data).
Proof.
  assert (map (fun b => map data (mlist b)) (run toy_hash ex_store ex_data) =
    [[Some (DataFlash 1 16 5); None; Some (DataMemory (Some [1;2;3]%N) 3)]; [None];
     [Some (Data4 0x01020304%N);
      Some (DataCallback (fun off len => (inl (window off len [8;9]%N), 2)) None)]]) as E
    by (vm_compute; reflexivity).
  revert E. generalize (run toy_hash ex_store ex_data). intros s E b Hb m d Hm D.
  pose proof (in_map (fun b => map data (mlist b)) s b Hb) as I1.
  pose proof (in_map data (mlist b) m Hm) as I2.
  rewrite E in I1. rewrite D in I2. cbn [In] in I1.
  destruct I1 as [I1|[I1|[I1|[]]]]; rewrite <- I1 in I2; cbn [In] in I2.
  - destruct I2 as [I2|[I2|[I2|[]]]]; try discriminate; injection I2 as <-.
    + apply stored_flash. lia.
    + apply stored_memory. cbn. lia.
  - destruct I2 as [I2|[]]; discriminate.
  - destruct I2 as [I2|[I2|[]]]; injection I2 as <-.
    + apply stored_4.
    + apply stored_callback; auto.
Qed.
(** A read that starts inside the data of one record and ends inside the next. *)
Example C22_ex :
  (exists n buf, store_get_tcg_log ex_flash (fun _ _ _ => 0%N) (run toy_hash ex_store ex_data) 126 60 (repeat 0%N 70) = Ok (n, buf)
     /\ n = 60 /\ skipn 60 buf = repeat 0%N 10 /\ firstn 3 buf = [20;21;0]%N) /\
  attestation_log_size (run toy_hash ex_store ex_data) = 573 /\
  get_measurement_type (run toy_hash ex_store ex_data) 3 = Ok (2, 0) /\
  bank_stored ex_flash ex_content (nth 2 (run toy_hash ex_store ex_data) bank0).
Proof.
  split; [vm_compute; eexists; eexists; split; [reflexivity|]; repeat split|].
  split; [vm_compute; reflexivity|]. split; [vm_compute; reflexivity|].
  apply ex_stored. apply nth_In. vm_compute. lia.
Qed.
Example C38_ex :
  measurement_data ex_flash (fun _ _ _ => 0%N) (nth 0 (run toy_hash ex_store ex_data) bank0) 2 3 4 =
    Ok ([0;9;1;2]%N, 8) /\
  (exists r, hash_measurement_data toy_hash no_fault ex_flash (fun _ _ _ => 0%N)
     (nth 0 (run toy_hash ex_store ex_data) bank0) 2 Sha384 48 = Ok r /\ length r = 48).
Proof. split; [vm_compute; reflexivity|]. vm_compute. eexists. split; reflexivity. Qed.
Example C38_digest_ex : exists s1 s2,
  step toy_hash no_fault ex_store (UpdateVersioned 0 2 (Some [1;2;3]%N) true 9%N) = (s1, Ok 0) /\
  step toy_hash no_fault s1 (SetData 0 2 (Some (DataMemory (Some [1;2;3]%N) 3))) = (s2, Ok 0).
Proof. eexists. eexists. split; [vm_compute; reflexivity|]. vm_compute. reflexivity. Qed.

(** C22 does not hold for an empty flash region, which pcr_set_measurement_data accepts: reading the log
    past the record of that measurement returns flash bytes from outside the region. *)
Theorem C22_empty_flash_region_refuted : exists s off n buf,
  s = run toy_hash (store_init [(1, Sha256)]) [(SetData 0 0 (Some (DataFlash 0 100 0)), no_fault)] /\
  store_get_tcg_log ex_flash (fun _ _ _ => 0%N) s off 3 (repeat 0%N 3) = Ok (n, buf) /\
  n = 3 /\ buf = [101; 102; 103]%N /\
  length (tcg_log (fun _ => []) [Sha256] s) < off.
Proof.
  eexists. exists (65 + 51), 3, [101;102;103]%N. split; [reflexivity|].
  split; [vm_compute; reflexivity|]. split; [reflexivity|]. split; [reflexivity|]. apply Nat.ltb_lt. vm_compute. reflexivity.
Qed.
Print Assumptions C22_empty_flash_region_refuted.

(** Nor for memory data with a NULL pointer and a non-zero length: the offset wraps below zero. *)
Theorem C22_null_memory_refuted : exists s,
  s = run toy_hash (store_init [(2, Sha256)]) [(SetData 0 0 (Some (DataMemory None 4)), no_fault)] /\
  store_get_tcg_log ex_flash (fun _ _ _ => 0%N) s 0 500 (repeat 0%N 500) = Wrapped.
Proof. eexists. split; [reflexivity|]. vm_compute. reflexivity. Qed.
Print Assumptions C22_null_memory_refuted.
