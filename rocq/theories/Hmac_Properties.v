(** C55, C56: HMAC and the key derivation functions compute what the standards say. *)
From Coq Require Import List NArith Lia Bool Arith.
From Verif Require Import Base Hmac_Model Hmac_Spec Hmac_Proofs Hmac_Kdf_Proofs.
Import ListNotations.

(** The digests have the lengths of their types. *)
Definition digests (H : htype -> list N -> list N) (b : build) : Prop :=
  forall t d, supported b t = true -> length (H t d) = digest_bytes t.

(** ** C55 *)

(** The HMAC of a block of data: whatever key and data, and whatever calls of the engine fail, the buffer gets the HMAC of RFC 2104
    and nothing else in it changes, or it is left alone and there was a reason to fail.  Afterwards the engine is idle, and the
    context holds nothing of the key. *)
Theorem C55_hmac : forall H b fault n memory t key data out e m out' ok, digests H b -> length memory = 128 ->
  generate_hmac H b fault (Engine None n) memory t key data out = (e, m, out', ok) ->
  active e = None /\ (m_key m = memory \/ m_key m = repeat 0%N 128) /\
  (if ok then out' = hmac_of (H t) (block_bytes t) (bytes key) (bytes data) ++ skipn (digest_bytes t) out /\
              length out' = length out /\ supported b t = true
   else out' = out /\
        ((exists i, n <= i < calls e /\ fault i <> None) \/ supported b t = false \/ length out < digest_bytes t \/
         (exists k, key = Null (S k)) \/ (exists k, data = Null k))).
Proof.
  intros H b fault n memory t key data out e m out' ok D L E.
  destruct (generate_hmac_spec H b fault D _ _ _ _ _ _ _ _ _ _ E eq_refl L) as (A & _ & _ & K & R). split; auto. split; [exact K|].
  destruct ok.
  - destruct R as (S & Lo & _ & _ & _ & ->). pose proof (hmac_length H b D t (bytes key) (bytes data) S) as HL.
    unfold splice. cbn [firstn app Nat.add]. rewrite HL. split; auto. split; auto. rewrite app_length, skipn_length, HL. lia.
  - destruct R as (-> & R). split; auto. destruct R as [R|[R|[R|[R|R]]]]; auto.
    + right; right; right; left. destruct key as [[|k]|]; cbn in R; [tauto|eauto|tauto].
    + right; right; right; right. destruct data as [k|]; cbn in R; [eauto|tauto].
Qed.
Print Assumptions C55_hmac.

(** The data may come in any pieces. *)
Theorem C55_pieces : forall H b fault n memory t key l out e1 m1 ok1 e2 ok2 e3 m3 out' ok3, digests H b -> length memory = 128 ->
  hmac_init H b fault (Engine None n) memory t key = (e1, m1, ok1) ->
  updates fault e1 l = (e2, ok2) -> hmac_finish H b fault e2 m1 out = (e3, m3, out', ok3) ->
  ok1 = true -> ok2 = true -> digest_bytes t <= length out ->
  active e3 = None /\ m_key m3 = repeat 0%N 128 /\
  (if ok3 then out' = hmac_of (H t) (block_bytes t) (bytes key) (concat (map bytes l)) ++ skipn (digest_bytes t) out
   else out' = out /\ exists i, n <= i < calls e3 /\ fault i <> None).
Proof.
  intros H b fault n memory t key l out e1 m1 ok1 e2 ok2 e3 m3 out' ok3 D L E1 E2 E3 -> -> Lo.
  destruct (hmac_init_spec H b fault D _ _ _ _ _ _ _ E1 eq_refl L) as (C1 & _ & R1).
  destruct (ready_update H b fault _ _ _ _ _ _ _ _ E2 R1) as (C2 & R2).
  destruct (hmac_finish_spec H b fault D _ _ _ _ _ _ _ _ _ _ E3 R2 Lo) as (C3 & A3 & K3 & R3).
  split; auto. split; auto. destruct ok3.
  - rewrite R3. destruct R1 as (_ & S & _). unfold splice. cbn [firstn app Nat.add]. now rewrite (hmac_length H b D t _ _ S).
  - destruct R3 as (-> & i & R3 & F). split; auto. exists i. split; auto. cbn in C1. lia.
Qed.
Print Assumptions C55_pieces.

(** With no failing call and good arguments the HMAC is always computed. *)
Theorem C55_no_spurious_failure : forall H b n memory t key data out, digests H b -> length memory = 128 ->
  supported b t = true -> digest_bytes t <= length out ->
  exists e m, generate_hmac H b (fun _ => None) (Engine None n) memory t (Mem key) (Mem data) out
    = (e, m, hmac_of (H t) (block_bytes t) key data ++ skipn (digest_bytes t) out, true).
Proof.
  intros H b n memory t key data out D L S Lo.
  destruct (generate_hmac H b (fun _ => None) (Engine None n) memory t (Mem key) (Mem data) out) as [[[e m] out'] ok] eqn:E.
  destruct (C55_hmac _ _ _ _ _ _ _ _ _ _ _ _ _ D L E) as (_ & _ & R). exists e, m. destruct ok.
  - destruct R as (-> & _). reflexivity.
  - exfalso. destruct R as (_ & [(i & _ & R)|[R|[R|[(k & R)|(k & R)]]]]); try congruence. lia.
Qed.
Print Assumptions C55_no_spurious_failure.

(** An engine that is in the middle of another digest is refused, and that digest goes on undisturbed. *)
Theorem C55_busy_engine : forall H b fault x n memory t key data out,
  exists e m, generate_hmac H b fault (Engine (Some x) n) memory t key data out = (e, m, out, false) /\ active e = Some x.
Proof.
  intros H b fault x n memory t key data out. unfold generate_hmac.
  assert (I: exists e m, hmac_init H b fault (Engine (Some x) n) memory t key = (e, m, false) /\ active e = Some x).
  { unfold hmac_init, start, calculate. cbn [active calls].
    destruct key as [[|k]|d]; destruct t; cbn [block_size hash_length]; eauto; cbn [active calls];
      repeat (match goal with |- context [if ?c then _ else _] => destruct c | |- context [match fault ?i with _ => _ end] => destruct (fault i) end;
              cbn [active calls]); eauto. }
  destruct I as (e & m & -> & A). eauto.
Qed.
Print Assumptions C55_busy_engine.

(** A digest of the right length that depends on all of the data. *)
Definition mix (l : list N) : N := fold_left (fun a x => (a * 31 + x + 7) mod 251)%N l 1%N.
Definition toy (t : htype) (d : list N) : list N := map (fun i => (mix (N.of_nat i :: d)) mod 256)%N (seq 0 (digest_bytes t)).
Definition all_types : build := Build true true true.

Lemma toy_digests : forall b, digests toy b.
Proof. intros b t d _. unfold toy. now rewrite map_length, seq_length. Qed.

Definition some_memory : list N := repeat 0xaa%N 128.

Example C55_example :
  let '(e, m, out, ok) := generate_hmac toy all_types (fun _ => None) (Engine None 0) some_memory SHA256 (Mem [1; 2; 3]%N) (Mem [4; 5]%N) (repeat 9%N 34) in
  ok = true /\ skipn 32 out = [9; 9]%N /\ firstn 32 out = hmac_of (toy SHA256) 64 [1; 2; 3]%N [4; 5]%N /\
  firstn 32 out <> hmac_of (toy SHA256) 64 [1; 2; 4]%N [4; 5]%N /\ m_key m = repeat 0%N 128 /\ calls e = 8.
Proof. vm_compute. repeat split; discriminate. Qed.

(** With a key that is longer than a block, in pieces, and with a call that fails. *)
Example C55_example_pieces :
  let '(e1, m1, ok1) := hmac_init toy all_types (fun _ => None) (Engine None 0) some_memory SHA1 (Mem (repeat 7%N 70)) in
  let '(e2, ok2) := updates (fun _ => None) e1 [Mem [1]%N; Mem []; Mem [2; 3]%N] in
  let '(e3, m3, out, ok3) := hmac_finish toy all_types (fun _ => None) e2 m1 (repeat 0%N 20) in
  ok1 = true /\ ok2 = true /\ ok3 = true /\ out = hmac_of (toy SHA1) 64 (repeat 7%N 70) [1; 2; 3]%N /\
  (let '(e, m, out, ok) := generate_hmac toy all_types (fun i => if i =? 5 then Some [1%N] else None) (Engine None 0) some_memory SHA1
                             (Mem [1]%N) (Mem [2]%N) (repeat 9%N 20) in
   ok = false /\ active e = None /\ out = repeat 9%N 20 /\ m_key m = repeat 0%N 128).
Proof. vm_compute. repeat split. Qed.

(** ** C56 *)

(** The KDF in counter mode: the whole output buffer is what SP 800-108 says, or an error is reported and there was a reason.  The
    engine is idle afterwards and no key is left behind. *)
Theorem C56_counter_kdf : forall H b fault n memory t key label context out e memory' out' r, digests H b -> length memory = 128 ->
  kdf H b fault (Engine None n) memory t key label context out = (e, memory', out', r) -> out <> [] ->
  active e = None /\ (memory' = memory \/ memory' = repeat 0%N 128) /\ length out' = length out /\
  (r = Ok /\ supported b t = true /\ out' = counter_kdf (H t) (block_bytes t) key (bytes label) (bytes context) (length out) \/
   r = Failed /\ ((exists i, n <= i < calls e /\ fault i <> None) \/ supported b t = false \/ exists k, label = Null k)).
Proof.
  intros H b fault n memory t key label context out e memory' out' r D L E NE.
  destruct (kdf_spec H b fault D _ _ _ _ _ _ _ _ _ _ _ E eq_refl L NE) as (_ & A & M & Lo & R).
  split; auto. split; auto. split; auto. destruct r.
  - left. destruct R as (S & _ & ->). auto.
  - right. split; auto. destruct R as [R|[R|R]]; auto. right. right. destruct label as [k|]; [eauto|]. exfalso. apply R. exact I.
  - contradiction.
Qed.
Print Assumptions C56_counter_kdf.

(** HKDF-Expand likewise; keys that are too long are refused, as RFC 5869 asks. *)
Theorem C56_hkdf_expand : forall H b fault n memory t prk info out e memory' out' r, digests H b -> length memory = 128 ->
  supported b t = true -> hkdf_expand H b fault (Engine None n) memory t prk info out = (e, memory', out', r) ->
  active e = None /\ (memory' = memory \/ memory' = repeat 0%N 128) /\ length out' = length out /\
  (r = Ok /\ length out <= 255 * digest_bytes t /\ digest_bytes t <= length prk /\
     out' = hkdf_of (H t) (block_bytes t) prk (bytes info) (length out) \/
   r = Failed /\ ((exists i, n <= i < calls e /\ fault i <> None) \/ 255 * digest_bytes t < length out \/ length prk < digest_bytes t)).
Proof.
  intros H b fault n memory t prk info out e memory' out' r D L S E.
  destruct (hkdf_expand_spec H b fault D _ _ _ _ _ _ _ _ _ _ E eq_refl L S) as (_ & A & M & Lo & R).
  split; auto. split; auto. split; auto. destruct r.
  - left. destruct R as (X & Y & ->). auto.
  - right. split; auto. destruct R as [R|[R|R]]; auto.
  - contradiction.
Qed.
Print Assumptions C56_hkdf_expand.

(** HKDF in use: for every sequence of calls and failures, keys are derived from the pseudorandom key of the last extraction, as
    updated since, and only from that; without one, nothing is derived.  Nothing of a key stays in the memory of HMAC contexts. *)
Theorem C56_hkdf_history : forall H b fault memory l s r, digests H b -> length memory = 128 ->
  run H b fault (init b memory) l = (s, r) ->
  answers_ok H None l r /\ (k_memory s = memory \/ k_memory s = repeat 0%N 128) /\ active (k_engine s) = None.
Proof.
  intros H b fault memory l s r D L E.
  assert (I0: inv b memory (init b memory) None).
  { unfold inv, init. cbn. split; auto. split; [left; auto|]. split; [apply repeat_length|]. auto. }
  destruct (run_inv H b fault D memory l _ _ _ _ L I0 E) as (A & prk & J1 & J2 & _). auto.
Qed.
Print Assumptions C56_hkdf_history.

(** When the pseudorandom key is cleared nothing of it remains. *)
Theorem C56_cleared : forall H b fault s, k_prk (fst (step H b fault s Clear)) = repeat 0%N (max_hash b) /\
  forall info out, snd (step H b fault (fst (step H b fault s Clear)) (Expand info out)) = Refused.
Proof. intros. split; reflexivity. Qed.
Print Assumptions C56_cleared.

(** Two different things happen here: an extraction, keys, an update, and a failure. *)
Definition use : list op :=
  [Expand (Mem [1]%N) (repeat 0%N 10); Extract SHA1 (Mem [1; 2; 3]%N) (Mem [9]%N); Expand (Mem [1]%N) (repeat 0%N 30);
   UpdatePrk (Mem [5]%N) []; Expand (Null 0) (repeat 0%N 2); Extract SHA1 (Mem []) (Mem []); Clear; UpdatePrk (Null 0) []].

Example C56_example :
  let p := mac toy SHA1 [9]%N [1; 2; 3]%N in
  let t1 := mac toy SHA1 p [1; 1]%N in
  let q := mac toy SHA1 p [5; 1]%N in
  snd (run toy all_types (fun _ => None) (init all_types some_memory) use)
  = [Refused; Done; Key (firstn 30 (t1 ++ mac toy SHA1 p (t1 ++ [1; 2]%N))); Done; Key (firstn 2 (mac toy SHA1 q [1]%N)); Refused; Done; Refused].
Proof. vm_compute. reflexivity. Qed.

Example C56_example_kdf :
  let '(e, m, out, r) := kdf toy all_types (fun _ => None) (Engine None 0) some_memory SHA1 [1; 2]%N (Mem [3; 4]%N) (Mem [5]%N) (repeat 0%N 24) in
  r = Ok /\ firstn 20 out = mac toy SHA1 [1; 2]%N [0; 0; 0; 1; 3; 4; 0; 5; 0; 0; 0; 192]%N /\
  skipn 20 out = firstn 4 (mac toy SHA1 [1; 2]%N [0; 0; 0; 2; 3; 4; 0; 5; 0; 0; 0; 192]%N).
Proof. vm_compute. repeat split. Qed.

(** Asked for no key at all, the KDF returns a status that was never set. *)
Theorem C56_empty_key_refuted : forall H b fault e memory t key label context, t <> Other ->
  snd (kdf H b fault e memory t key (Mem label) context []) = Undefined.
Proof. intros H b fault e memory t key label context N. destruct t; try easy. Qed.
Print Assumptions C56_empty_key_refuted.

(** Called directly with a hash that the build does not have, HKDF-Expand clears more bytes than its block has. *)
Theorem C56_unsupported_hash_refuted : forall H fault e memory prk info, length prk = 64 ->
  snd (hkdf_expand H (Build false false false) fault e memory SHA512 prk info [0%N]) = Undefined.
Proof. intros H fault e memory prk info L. unfold hkdf_expand. cbn [hash_length]. rewrite L. reflexivity. Qed.
Print Assumptions C56_unsupported_hash_refuted.

(** The interface says that the length of a null salt is ignored; with another length than zero the extraction fails. *)
Theorem C56_null_salt_refuted : forall H b fault s t x ikm n, snd (step H b fault s (Extract t (Mem (x :: ikm)) (Null (S n)))) = Error.
Proof. intros. reflexivity. Qed.
Print Assumptions C56_null_salt_refuted.

(** The interface says that an extraction erases the key of the one before; one that is refused for its arguments does not. *)
Theorem C56_refused_extraction_refuted : exists l k,
  snd (run toy all_types (fun _ => None) (init all_types some_memory) l) = [Done; Refused; Key k] /\
  l = [Extract SHA256 (Mem [1]%N) (Mem []); Extract SHA256 (Mem []) (Mem []); Expand (Null 0) (repeat 0%N 4)].
Proof. eexists _, _. split; [|reflexivity]. vm_compute. reflexivity. Qed.
Print Assumptions C56_refused_extraction_refuted.
