(** Model of the HMAC functions of core/crypto/hash.c, of core/crypto/kdf.c and of core/crypto/hkdf.c.

    The hash engine is the one of core/crypto/hash_mbedtls.c as seen through struct hash_engine (hash.h:60-237): it is idle or
    collects the data of one digest.  Every call of it may fail, and a call that fails while data is collected leaves
    arbitrary data behind.  The digests themselves are an arbitrary function.
    Simplifications: handles, output buffers and the derivation key are not null, other pointers may be; lengths are natural
    numbers, apart from the 32-bit lengths and counters that are part of hashed data; local buffers that are cleared on every way
    out (round_hmac, t, new_prk) do not appear in the results. *)
From Coq Require Import List NArith Bool Arith.
From Verif Require Import Base.
Import ListNotations.

(** hash.h:37-46, enum hash_type and enum hmac_hash; [Other] is any other value. *)
Inductive htype := SHA1 | SHA256 | SHA384 | SHA512 | Other.

Definition htype_eqb (a b : htype) : bool :=
  match a, b with SHA1, SHA1 | SHA256, SHA256 | SHA384, SHA384 | SHA512, SHA512 | Other, Other => true | _, _ => false end.

(** hash.c:182-200, hash_get_hash_length, and hash.c:230-248, hash_get_block_size; [None] for HASH_ENGINE_UNKNOWN_HASH *)
Definition hash_length (t : htype) : option nat :=
  match t with SHA1 => Some 20 | SHA256 => Some 32 | SHA384 => Some 48 | SHA512 => Some 64 | Other => None end.
Definition block_size (t : htype) : option nat :=
  match t with SHA1 => Some 64 | SHA256 => Some 64 | SHA384 => Some 128 | SHA512 => Some 128 | Other => None end.

(** A pointer with a length. *)
Inductive ptr := Null (len : nat) | Mem (data : list N).
Definition ptr_len (p : ptr) : nat := match p with Null n => n | Mem d => length d end.

(** HASH_ENABLE_SHA1, HASH_ENABLE_SHA384 and HASH_ENABLE_SHA512 *)
Record build := Build { b_sha1 : bool; b_sha384 : bool; b_sha512 : bool }.

(** hash.c:257-281, hash_is_alg_supported *)
Definition supported (b : build) (t : htype) : bool :=
  match t with SHA1 => b_sha1 b | SHA256 => true | SHA384 => b_sha384 b | SHA512 => b_sha512 b | Other => false end.
(** hash.h:20-26, HASH_MAX_HASH_LEN *)
Definition max_hash (b : build) : nat := if b_sha512 b then 64 else if b_sha384 b then 48 else 32.

(** The engine: what it collects, and how often it was called. *)
Record engine := Engine { active : option (htype * list N); calls : nat }.

(** struct hmac_engine, hash.h:270-276 *)
Record hmac := Hmac { m_type : htype; m_key : list N; m_block : nat; m_len : nat }.

Definition be32 (x : N) : list N :=
  [(x / 16777216 mod 256)%N; (x / 65536 mod 256)%N; (x / 256 mod 256)%N; (x mod 256)%N].

Inductive outcome := Ok | Failed | Undefined.

Section Engine.
(** The digests, the build, and which calls of the engine fail, with what is then left in the engine. *)
Variable H : htype -> list N -> list N.
Variable b : build.
Variable fault : nat -> option (list N).

(** hash.c:18-61, hash_start_new_hash, and hash_mbedtls.c:70-92 and so on *)
Definition start (e : engine) (t : htype) : engine * bool :=
  let e' := Engine (active e) (S (calls e)) in
  match fault (calls e) with
  | Some _ => (e', false)
  | None =>
    match active e with
    | Some _ => (e', false)
    | None => if supported b t then (Engine (Some (t, [])) (S (calls e)), true) else (e', false)
    end
  end.

Definition spoil (a : option (htype * list N)) (junk : list N) : option (htype * list N) :=
  match a with Some (t, _) => Some (t, junk) | None => None end.

(** hash_mbedtls.c:242-279 *)
Definition update (e : engine) (d : list N) : engine * bool :=
  match fault (calls e), active e with
  | Some junk, a => (Engine (spoil a junk) (S (calls e)), false)
  | None, Some (t, x) => (Engine (Some (t, x ++ d)) (S (calls e)), true)
  | None, None => (Engine None (S (calls e)), false)
  end.

(** hash_mbedtls.c:346-410, with a buffer of [n] bytes *)
Definition finish (e : engine) (n : nat) : engine * option (list N) :=
  match fault (calls e), active e with
  | Some junk, a => (Engine (spoil a junk) (S (calls e)), None)
  | None, Some (t, x) =>
    match hash_length t with
    | Some l => if n <? l then (Engine (Some (t, x)) (S (calls e)), None) else (Engine None (S (calls e)), Some (H t x))
    | None => (Engine (Some (t, x)) (S (calls e)), None)
    end
  | None, None => (Engine None (S (calls e)), None)
  end.

(** hash_mbedtls.c:412-419 *)
Definition cancel (e : engine) : engine := Engine None (S (calls e)).

(** hash.c:76-131, hash_calculate, and hash_mbedtls.c:50-68 and so on, with a buffer that is large enough *)
Definition calculate (e : engine) (t : htype) (d : list N) : engine * option (list N) :=
  let e' := Engine (active e) (S (calls e)) in
  match fault (calls e), active e with
  | None, None => (e', if supported b t then Some (H t d) else None)
  | _, _ => (e', None)
  end.

Definition zeroes (n : nat) : list N := repeat 0%N n.

(** hash.c:353-420, hash_hmac_init; [memory] is what was in the context's key buffer.  The result is the engine, the context
    ([None] if it is not set up before an error) and whether it worked. *)
Definition hmac_init (e : engine) (memory : list N) (t : htype) (key : ptr) : engine * hmac * bool :=
  match key, block_size t, hash_length t with
  | Null (S _), _, _ => (e, Hmac Other memory 0 0, false)
  | _, Some blk, Some len =>
    let error e := (e, Hmac t (zeroes (length memory)) blk len, false) in
    let cont e buf klen :=
      let '(e, ok) := start e t in
      if ok then
        let inner := map (fun i => if i <? klen then N.lxor (nth i buf 0%N) 0x36 else 0x36%N) (seq 0 blk) in
        let buf := splice buf 0 inner in
        let '(e, ok) := update e (firstn blk buf) in
        if ok then (e, Hmac t (splice buf 0 (map (fun x => N.lxor x (N.lxor 0x5c 0x36)) (firstn blk buf))) blk len, true)
        else error (cancel e)
      else error e in
    match key with
    | Mem d =>
      if blk <? length d then
        match calculate e t d with
        | (e, Some h) => cont e (splice memory 0 h) len
        | (e, None) => error e
        end
      else cont e (splice memory 0 d) (length d)
    | Null _ => cont e memory 0
    end
  | _, _, _ => (e, Hmac Other memory 0 0, false)
  end.

(** hash.c:431-438, hash_hmac_update *)
Definition hmac_update (e : engine) (data : ptr) : engine * bool :=
  match data with Null _ => (e, false) | Mem d => update e d end.

(** hash.c:509-516, hash_hmac_cancel *)
Definition hmac_cancel (e : engine) (m : hmac) : engine * hmac :=
  (cancel e, Hmac (m_type m) (zeroes (length (m_key m))) (m_block m) (m_len m)).

(** hash.c:453-502, hash_hmac_finish, with the buffer [out] *)
Definition hmac_finish (e : engine) (m : hmac) (out : list N) : engine * hmac * list N * bool :=
  if length out <? m_len m then (e, m, out, false)
  else
    let fail e := let '(e, m) := hmac_cancel e m in (e, m, out, false) in
    let '(e, r) := finish e 64 in
    match r with
    | None => fail e
    | Some inner =>
      let '(e, ok) := start e (m_type m) in
      if ok then
        let '(e, ok) := update e (firstn (m_block m) (m_key m)) in
        if ok then
          let '(e, ok) := update e (firstn (m_len m) inner) in
          if ok then
            let '(e, r) := finish e (length out) in
            match r with
            | None => fail e
            | Some d => (e, Hmac (m_type m) (zeroes (length (m_key m))) (m_block m) (m_len m), splice out 0 d, true)
            end
          else fail e
        else fail e
      else fail e
    end.

(** hash.c:311-338, hash_generate_hmac *)
Definition generate_hmac (e : engine) (memory : list N) (t : htype) (key data : ptr) (out : list N)
  : engine * hmac * list N * bool :=
  let '(e, m, ok) := hmac_init e memory t key in
  if ok then
    if length out <? m_len m then let '(e, m) := hmac_cancel e m in (e, m, out, false)
    else
      let '(e, ok) := hmac_update e data in
      if ok then hmac_finish e m out
      else let '(e, m) := hmac_cancel e m in (e, m, out, false)
  else (e, m, out, false).

(** Successive updates, until one fails. *)
Fixpoint updates (e : engine) (l : list ptr) : engine * bool :=
  match l with
  | [] => (e, true)
  | p :: q => let '(e, ok) := hmac_update e p in if ok then updates e q else (e, false)
  end.

(** kdf.c:29-120, kdf_nist800_108_counter_mode: the rounds from [i]; [pos] is key_out_pos.  With no rounds the status is
    not initialised. *)
Fixpoint kdf_rounds (n : nat) (e : engine) (memory : list N) (t : htype) (len : nat) (kdk : list N) (label context : ptr) (i pos : nat)
    (out : list N) : engine * list N * list N * outcome :=
  match n with
  | O => (e, memory, out, Ok)
  | S n' =>
    let '(e, m, ok) := hmac_init e memory t (Mem kdk) in
    if ok then
      let '(e, ok) := updates e ([Mem (be32 (N.of_nat i)); label; Mem [0%N]] ++
                                 (match context with Null _ => [] | Mem _ => [context] end) ++
                                 [Mem (be32 (N.of_nat (length out * 8)))]) in
      if ok then
        let '(e, m, r, ok) := hmac_finish e m (zeroes (max_hash b)) in
        if ok then
          kdf_rounds n' e (m_key m) t len kdk label context (S i) (pos + min len (length out - pos))
            (splice out pos (firstn (min len (length out - pos)) r))
        else (e, m_key m, out, Failed)
      else let '(e, m) := hmac_cancel e m in (e, m_key m, out, Failed)
    else (e, m_key m, out, Failed)
  end.

Definition rounds (n len : nat) : nat := n / len + (if n mod len =? 0 then 0 else 1).

Definition kdf (e : engine) (memory : list N) (t : htype) (kdk : list N) (label context : ptr) (out : list N)
  : engine * list N * list N * outcome :=
  match label, hash_length t with
  | Mem _, Some len =>
    if length out =? 0 then (e, memory, out, Undefined)
    else kdf_rounds (rounds (length out) len) e memory t len kdk label context 1 0 (zeroes (length out))
  | _, _ => (e, memory, out, Failed)
  end.

(** kdf.c:185-222, the rounds of kdf_hkdf_expand from [i]; [t] is the block before and [n] the number of all rounds. *)
Fixpoint expand_rounds (k : nat) (e : engine) (memory : list N) (ty : htype) (len n : nat) (prk : list N) (info : ptr) (i : nat)
    (t : list N) (pos : nat) (out : list N) : engine * list N * list N * outcome :=
  match k with
  | O => (e, memory, out, Ok)
  | S k' =>
    let '(e, m, ok) := hmac_init e memory ty (Mem prk) in
    if ok then
      let '(e, ok) := updates e ((match t with [] => [] | _ => [Mem t] end) ++
                                 (match info with Null _ => [] | Mem _ => [info] end) ++ [Mem [N.land (N.of_nat i) 255]]) in
      if ok then
        let '(e, m, r, ok) := hmac_finish e m (t ++ skipn (length t) (zeroes (max_hash b))) in
        if ok then
          let c := if i =? n then length out - pos else len in
          expand_rounds k' e (m_key m) ty len n prk info (S i) (firstn len r) (pos + len) (splice out pos (firstn c r))
        else (e, m_key m, out, Failed)
      else let '(e, m) := hmac_cancel e m in (e, m_key m, out, Failed)
    else (e, m_key m, out, Failed)
  end.

(** kdf.c:141-233, kdf_hkdf_expand; clearing more bytes than the block has room for is undefined (181). *)
Definition hkdf_expand (e : engine) (memory : list N) (ty : htype) (prk : list N) (info : ptr) (out : list N)
  : engine * list N * list N * outcome :=
  match hash_length ty with
  | None => (e, memory, out, Failed)
  | Some len =>
    if length prk <? len then (e, memory, out, Failed)
    else if 255 <? rounds (length out) len then (e, memory, out, Failed)
    else if max_hash b <? len then (e, memory, out, Undefined)
    else expand_rounds (rounds (length out) len) e memory ty len (rounds (length out) len) prk info 1 [] 0 out
  end.

(** struct hkdf_state, hkdf.h:14-17, with the engine and the memory that HMAC contexts are in; the type is [Other] for
    HMAC_INVALID. *)
Record hkdf := Hkdf { k_prk : list N; k_type : htype; k_engine : engine; k_memory : list N }.

Inductive reply := Done | Key (k : list N) | Refused | Error | Wrong.

(** hkdf.c:17-21, hkdf_reset_key_derivation_context *)
Definition reset (s : hkdf) : hkdf := Hkdf (zeroes (max_hash b)) Other (k_engine s) (k_memory s).

(** hkdf.c:23-49, hkdf_extract *)
Definition extract (s : hkdf) (t : htype) (ikm salt : ptr) : hkdf * reply :=
  match ikm with
  | Null _ | Mem [] => (s, Refused)
  | _ =>
    let '(e, m, out, ok) := generate_hmac (k_engine s) (k_memory s) t salt ikm (zeroes (max_hash b)) in
    if ok then (Hkdf out t e (m_key m), Done) else (Hkdf (zeroes (max_hash b)) Other e (m_key m), Error)
  end.

(** hkdf.c:51-67, hkdf_expand, for a buffer *)
Definition expand (s : hkdf) (info : ptr) (out : list N) : hkdf * reply :=
  match hash_length (k_type s) with
  | None => (s, Refused)
  | Some len =>
    let '(e, memory, out, r) := hkdf_expand (k_engine s) (k_memory s) (k_type s) (firstn len (k_prk s)) info out in
    (Hkdf (k_prk s) (k_type s) e memory, match r with Ok => Key out | Failed => Error | Undefined => Wrong end)
  end.

(** hkdf.c:69-84, hkdf_update_prk; [junk] is what is in new_prk. *)
Definition update_prk (s : hkdf) (info : ptr) (junk : list N) : hkdf * reply :=
  match expand s info (firstn (max_hash b) (junk ++ zeroes (max_hash b))) with
  | (s, Key k) =>
    match hash_length (k_type s) with
    | Some len => (Hkdf (splice (k_prk s) 0 (firstn len k)) (k_type s) (k_engine s) (k_memory s), Done)
    | None => (s, Wrong)
    end
  | (s, r) => (s, r)
  end.

(** hkdf.c:86-97, hkdf_clear_prk *)
Definition clear (s : hkdf) : hkdf * reply := (reset s, Done).

Inductive op := Extract (t : htype) (ikm salt : ptr) | Expand (info : ptr) (out : list N) | UpdatePrk (info : ptr) (junk : list N) | Clear.

Definition step (s : hkdf) (o : op) : hkdf * reply :=
  match o with
  | Extract t ikm salt => extract s t ikm salt
  | Expand info out => expand s info out
  | UpdatePrk info junk => update_prk s info junk
  | Clear => clear s
  end.

Fixpoint run (s : hkdf) (l : list op) : hkdf * list reply :=
  match l with
  | [] => (s, [])
  | o :: q => let '(s, r) := step s o in let '(s, q) := run s q in (s, r :: q)
  end.

(** hkdf.c:108-146, hkdf_init with an idle engine *)
Definition init (memory : list N) : hkdf := Hkdf (zeroes (max_hash b)) Other (Engine None 0) memory.
End Engine.
