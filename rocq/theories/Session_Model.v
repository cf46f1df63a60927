(** Model of core/cmd_interface/session_manager.c and session_manager_ecc.c.

    Simplifications: pointers are never null, except the HMAC of a reset and the keystore; secrets on
    the stack are not modelled after their last use (they are cleared).  Cryptography is arbitrary
    functions; every engine, allocation and keystore call may fail, as chosen by the environment. *)
From Coq Require Import List NArith Bool Arith.
From Verif Require Import Base ByteMath_Model BufferUtil_Model.
Import ListNotations.

Definition KEY_LEN : nat := 32.      (* aes_gcm.h:20, session_manager.h:21-25 *)
Definition TAG_LEN : nat := 16.      (* cerberus_protocol.h:24 *)
Definition IV_LEN : nat := 12.       (* cerberus_protocol.h:25 *)
Definition TRAILER : nat := 28.      (* session_manager.h:23 *)
Definition HEADER : nat := 5.        (* sizeof (struct cerberus_protocol_header), cerberus_protocol.h:142-151 *)
Definition HEADER_NO_ID : nat := 4.  (* cerberus_protocol.h:18 *)

(** session_manager.h:28-33 *)
Inductive sstate := Unused | Setup | Established | Paired.
Definition usable (s : sstate) : bool := match s with Established | Paired => true | _ => false end.
Definition used (s : sstate) : bool := match s with Unused => false | _ => true end.

(** session_manager.h:48-57, struct session_manager_entry; hmac_hash_type can only be HMAC_SHA256. *)
Record entry := Entry {
  e_key : list N; e_hmac : list N; e_dnonce : list N; e_cnonce : list N; e_eid : N; e_state : sstate; e_iv : list N
}.
Definition zeros (n : nat) : list N := repeat 0%N n.
(** An entry cleared by memset, 407 and 645. *)
Definition blank_entry : entry := Entry (zeros 32) (zeros 32) (zeros 32) (zeros 32) 0 Unused (zeros IV_LEN).
Definition table := list entry.

Definition set_e_key (e : entry) (k : list N) : entry :=
  Entry k (e_hmac e) (e_dnonce e) (e_cnonce e) (e_eid e) (e_state e) (e_iv e).
Definition set_e_hmac (e : entry) (k : list N) : entry :=
  Entry (e_key e) k (e_dnonce e) (e_cnonce e) (e_eid e) (e_state e) (e_iv e).
Definition set_e_state (e : entry) (s : sstate) : entry :=
  Entry (e_key e) (e_hmac e) (e_dnonce e) (e_cnonce e) (e_eid e) s (e_iv e).
Definition set_e_iv (e : entry) (v : list N) : entry :=
  Entry (e_key e) (e_hmac e) (e_dnonce e) (e_cnonce e) (e_eid e) (e_state e) v.

Inductive sm_status :=
| SmOk | SmUnexpectedEid | SmNotEstablished | SmInvalidOrder | SmFull | SmMalformed | SmBufTooSmall
| SmInvalidRequest | SmUnsupported | SmNotPermitted | SmPairingNotSupported | SmIvExhausted | SmCrypto
| SmKeystore | SmNoMemory | SmOverflow.   (* SmOverflow: memory outside an array was written *)

(** The part of struct cmd_interface_msg used here: [m_data] is the whole buffer, [m_len] the length of
    the message in it. *)
Record msg := Msg { m_data : list N; m_len : nat; m_max : nat; m_eid : N }.

(** Index of the first entry that satisfies [p], at or after [i]. *)
Fixpoint find_from (p : entry -> bool) (i : nat) (t : table) : option nat :=
  match t with
  | [] => None
  | e :: r => if p e then Some i else find_from p (S i) r
  end.
(** session_manager.c:25-38, session_manager_get_session *)
Definition get_session (t : table) (eid : N) : option nat :=
  find_from (fun e => (e_eid e =? eid)%N && used (e_state e)) 0 t.
(** 47-58, session_manager_get_free_session *)
Definition get_free (t : table) : option nat := find_from (fun e => negb (used (e_state e))) 0 t.
Definition at_ (t : table) (i : nat) : entry := nth i t blank_entry.

(** 91-113, session_manager_set_key, up to the call of the AES engine: the entry whose key is to be set. *)
Definition key_entry (t : table) (eid : N) : nat + sm_status :=
  match get_session t eid with
  | None => inr SmUnexpectedEid
  | Some i => if usable (e_state (at_ t i)) then inl i else inr SmNotEstablished
  end.

(** 123-137, session_manager_is_session_established *)
Definition is_established (t : table) (eid : N) : bool :=
  match get_session t eid with None => false | Some i => usable (e_state (at_ t i)) end.

(** 305-330, session_manager_add_session *)
Definition add_session (t : table) (eid : N) (dnonce cnonce : list N) : table * sm_status :=
  match (match get_session t eid with None => get_free t | s => s end) with
  | None => (t, SmFull)
  | Some i =>
    let e := at_ t i in
    (upd t i (Entry (e_key e) (e_hmac e) dnonce cnonce eid Setup (0x80%N :: zeros (IV_LEN - 1))), SmOk)
  end.

(** The header's crypt bit, 290: bit 5 of byte 3. *)
Definition set_crypt (d : list N) : list N := upd d 3 (N.lor (nth 3 d 0%N) 0x20).

Section Session.
(** AES-GCM: ciphertext and tag for a key, IV and plaintext; plaintext for a key, IV, ciphertext and
    tag, if the tag is right. *)
Variable enc : list N -> list N -> list N -> list N * list N.
Variable dec : list N -> list N -> list N -> list N -> option (list N).
(** HMAC and the key derivation function: key, label, context. *)
Variable hmac : list N -> list N -> list N.
Variable kdf : list N -> list N -> list N -> list N.

(** What the engine does when a message is encrypted: fails before, or after the ciphertext was written. *)
Inductive aes_outcome := AesOk | AesSetKeyFails | AesFails.

(** 239-293, session_manager_encrypt_message.  The last component is the key and IV given to the engine. *)
Definition encrypt (t : table) (m : msg) (o : aes_outcome) : table * msg * sm_status * option (list N * list N) :=
  if m_len m <? HEADER then (t, m, SmOk, None)
  else if m_max m <? m_len m + TRAILER then (t, m, SmBufTooSmall, None)
  else
    match key_entry t (m_eid m) with
    | inr e => (t, m, e, None)
    | inl i =>
      match o with
      | AesSetKeyFails => (t, m, SmCrypto, None)
      | _ =>
        let e := at_ t i in
        match increment_byte_array (e_iv e) false with
        | (iv, CM_OK) =>
          let t' := upd t i (set_e_iv e iv) in
          let len := m_len m - HEADER_NO_ID in
          let d := splice (m_data m) (HEADER_NO_ID + len + TAG_LEN) iv in
          let '(ct, tag) := enc (e_key e) iv (window HEADER_NO_ID len d) in
          let d := splice (splice d HEADER_NO_ID ct) (HEADER_NO_ID + len) tag in
          match o with
          | AesOk => (t', Msg (set_crypt d) (m_len m + TRAILER) (m_max m) (m_eid m), SmOk, Some (e_key e, iv))
          | _ => (t', Msg d (m_len m) (m_max m) (m_eid m), SmCrypto, Some (e_key e, iv))
          end
        | (iv, _) => (upd t i (set_e_iv e iv), m, SmIvExhausted, None)
        end
      end
    end.

(** 191-229, session_manager_decrypt_message; [fault] is an engine failure.  What a failing engine leaves in
    the message is not modelled. *)
Definition decrypt (t : table) (m : msg) (fault : bool) : msg * sm_status :=
  if m_len m <=? TRAILER + HEADER then (m, SmMalformed)
  else if (m_max m <? m_len m - TRAILER) || (m_max m <=? HEADER + TRAILER) then (m, SmBufTooSmall)
  else
    match key_entry t (m_eid m) with
    | inr e => (m, e)
    | inl i =>
      let len := m_len m - HEADER_NO_ID - TRAILER in
      let m' := Msg (m_data m) (m_len m - TRAILER) (m_max m) (m_eid m) in
      match dec (e_key (at_ t i)) (window (HEADER_NO_ID + len + TAG_LEN) IV_LEN (m_data m))
                (window HEADER_NO_ID len (m_data m)) (window (HEADER_NO_ID + len) TAG_LEN (m_data m)) with
      | Some pt => if fault then (m', SmCrypto)
                   else (Msg (splice (m_data m) HEADER_NO_ID pt) (m_len m - TRAILER) (m_max m) (m_eid m), SmOk)
      | None => (m', SmCrypto)
      end
    end.

(** 346-371, session_manager_generate_and_compare_hmac *)
Definition check_hmac (key data mac : list N) (fault : bool) : sm_status :=
  if negb (length mac =? 32) then SmUnsupported
  else if fault then SmCrypto
  else if buffer_compare 0xff (Some (hmac key data)) (Some mac) 32 then SmOk else SmNotPermitted.

(** 383-412, session_manager_reset_session; [mac] is [None] for a null pointer. *)
Definition reset_session (t : table) (eid : N) (mac : option (list N)) (fault : bool) : table * sm_status :=
  match get_session t eid with
  | None => (t, SmUnexpectedEid)
  | Some i =>
    let e := at_ t i in
    let st := match mac with
              | Some h => if usable (e_state e) then check_hmac (e_hmac e) (e_key e) h fault else SmOk
              | None => SmOk
              end in
    match st with SmOk => (upd t i blank_entry, SmOk) | _ => (t, st) end
  end.

(** kdf.c:59: the output is cleared before the first engine call, so a failure leaves zeros (29-120, with
    an output of one block). *)
Definition run_kdf (key label context : list N) (ok : bool) : list N := if ok then kdf key label context else zeros KEY_LEN.

(** "pairing", session_manager.c:477 *)
Definition PAIRING : list N := [112; 97; 105; 114; 105; 110; 103]%N.

(** What happens during pairing: the keystore's answer and the outcome of the calls in order. *)
Inductive load := LoadError | NoKey | Loaded (k : list N).
Record pair_env := PairEnv { p_load : load; p_kdf1 : bool; p_hmac : bool; p_kdf2 : bool; p_save : bool }.

(** 469-555, session_manager_setup_paired_session.  [pairing] is the list of devices that may pair,
    [store] tells if there is a keystore.  The last component is the key saved in it. *)
Definition setup_paired (pairing : list N) (store : bool) (t : table) (eid : N) (mac : list N) (v : pair_env)
  : table * sm_status * option (list N) :=
  if negb store then (t, SmUnsupported, None)
  else
    match get_session t eid with
    | None => (t, SmUnexpectedEid, None)
    | Some i =>
      let e := at_ t i in
      if negb (usable (e_state e)) then (t, SmInvalidOrder, None)
      else if negb (existsb (N.eqb eid) pairing) then (t, SmPairingNotSupported, None)
      else
        let finish pk generated :=
          match check_hmac (e_hmac e) pk mac (negb (p_hmac v)) with
          | SmOk =>
            let t1 := upd t i (set_e_key e (run_kdf pk (e_key e) [] (p_kdf2 v))) in
            if negb (p_kdf2 v) then (t1, SmCrypto, None)
            else if generated && negb (p_save v) then (t1, SmKeystore, None)
            else (upd t i (set_e_state (set_e_key e (kdf pk (e_key e) [])) Paired), SmOk,
                  if generated then Some pk else None)
          | st => (t, st, None)
          end in
        match p_load v with
        | LoadError => (t, SmKeystore, None)
        | NoKey => if p_kdf1 v then finish (kdf (e_key e) PAIRING []) true else (t, SmCrypto, None)
        | Loaded k => if 32 <? length k then (t, SmOverflow, None)
                      else finish (k ++ zeros (32 - length k)) false
        end
    end.

(** 568-595, session_manager_session_sync: the HMAC of the nonce, for a buffer of [room] bytes. *)
Definition session_sync (t : table) (eid : N) (nonce : list N) (room : nat) (fault : bool) : sm_status * list N :=
  match get_session t eid with
  | None => (SmUnexpectedEid, [])
  | Some i =>
    if negb (usable (e_state (at_ t i))) then (SmNotEstablished, [])
    else if fault || (room <? 32) then (SmCrypto, [])
    else (SmOk, hmac (e_hmac (at_ t i)) nonce)
  end.

(** What happens while a session is established: the outcome of the calls of session_manager_ecc.c:72-173
    in order, and the values they produce. *)
Record est_env := EstEnv {
  x_pub : bool; x_gen : bool; x_der : option (list N); x_digest : bool; x_keys : bool; x_sig : option (list N);
  x_secret_len : bool; x_alloc : bool; x_secret : option (list N); x_kdf1 : bool; x_kdf2 : bool; x_cert : list N; x_hmac : bool
}.

(** size_t subtraction, 32 bits *)
Definition sub_sz (a b : N) : N := ((a + 2 ^ 32 - b mod 2 ^ 32) mod 2 ^ 32)%N.

(** cerberus_protocol_optional_commands.h:471-475, sizeof (struct cerberus_protocol_key_exchange_response_type_0) *)
Definition RSP : nat := 9.
Definition REQ : nat := 7.   (* 438-441, sizeof (struct cerberus_protocol_key_exchange_type_0) *)
(** cerberus_protocol_optional_commands.h:491-519 and 544-547, the room macros *)
Definition max_key (m : msg) : N := sub_sz (N.of_nat (m_max m)) (N.of_nat RSP).
Definition max_sig (m : msg) (key : nat) : N := sub_sz (sub_sz (max_key m) (N.of_nat key)) 2.
Definition max_hmac (m : msg) (key sig : nat) : N := sub_sz (sub_sz (max_sig m key) 2) (N.of_nat sig).

(** session_manager_ecc.c:18-199, session_manager_ecc_establish_session.  The last component is one past
    the last byte of the buffer that was written. *)
Definition establish (t : table) (m : msg) (v : est_env) : table * msg * sm_status * nat :=
  let fail t st d n := (t, Msg d (m_len m) (m_max m) (m_eid m), st, n) in
  let d0 := m_data m in
  if m_len m <=? REQ then fail t SmInvalidRequest d0 0
  else if m_max m <=? 6 then fail t SmBufTooSmall d0 0
  else
    match get_session t (m_eid m) with
    | None => fail t SmUnexpectedEid d0 0
    | Some i =>
      let e := at_ t i in
      match e_state e with
      | Setup =>
        if negb (nth 6 d0 0%N =? 0)%N then fail t SmUnsupported d0 0
        else if negb (x_pub v) then fail t SmCrypto d0 0
        else if negb (x_gen v) then fail t SmCrypto d0 0
        else match x_der v with None => fail t SmCrypto d0 0 | Some der =>
        if negb (x_digest v) then fail t SmCrypto d0 0
        else
        let d1 := splice d0 6 [0%N] in
        if (max_key m <=? N.of_nat (length der))%N then fail t SmBufTooSmall d1 7
        else
        let d2 := splice (splice d1 RSP der) 7 (le16 (N.of_nat (length der))) in
        let n2 := RSP + length der in
        if negb (x_keys v) then fail t SmCrypto d2 n2
        else match x_sig v with None => fail t SmCrypto d2 n2 | Some sg =>
        if (max_sig m (length der) <? N.of_nat (length sg))%N then fail t SmCrypto d2 n2
        else
        let d3 := splice (splice d2 (n2 + 2) sg) n2 (le16 (N.of_nat (length sg))) in
        let n3 := n2 + 2 + length sg in
        if negb (x_secret_len v) then fail t SmCrypto d3 n3
        else if negb (x_alloc v) then fail t SmNoMemory d3 n3
        else match x_secret v with None => fail t SmCrypto d3 n3 | Some secret =>
        let e1 := set_e_key e (run_kdf secret (e_dnonce e) (e_cnonce e) (x_kdf1 v)) in
        if negb (x_kdf1 v) then fail (upd t i e1) SmCrypto d3 n3
        else
        let e2 := set_e_hmac e1 (run_kdf secret (e_cnonce e) (e_dnonce e) (x_kdf2 v)) in
        if negb (x_kdf2 v) then fail (upd t i e2) SmCrypto d3 n3
        else if negb (x_hmac v) || (max_hmac m (length der) (length sg) <? 32)%N then fail (upd t i e2) SmCrypto d3 n3
        else
        let d4 := splice (splice d3 (n3 + 2) (hmac (e_hmac e2) (x_cert v))) n3 (le16 32) in
        let n4 := n3 + 2 + 32 in
        (upd t i (set_e_state e2 Established), Msg d4 n4 (m_max m) (m_eid m), SmOk, n4)
        end end end
      | _ => fail t SmInvalidOrder d0 0
      end
    end.

(** session_manager_init, 615-650 *)
Definition init_table (n : nat) : table := repeat blank_entry n.

(** A history: the calls, with what the environment does in each. *)
Inductive op :=
| OpAdd (eid : N) (dnonce cnonce : list N)
| OpEstablish (m : msg) (v : est_env)
| OpEncrypt (m : msg) (o : aes_outcome)
| OpDecrypt (m : msg) (fault : bool)
| OpReset (eid : N) (mac : option (list N)) (fault : bool)
| OpPair (eid : N) (mac : list N) (v : pair_env)
| OpSync (eid : N) (nonce : list N) (room : nat) (fault : bool).

(** What can be seen of a call: sessions set up, agreed and removed, keys in use. *)
Inductive event :=
| Added (eid : N)
| Agreed (eid : N) (key : list N)         (* a session was established *)
| Rekeyed (eid : N) (key : list N)        (* pairing replaced the session key *)
| Removed (eid : N)
| Encrypted (eid : N) (key iv : list N)   (* the engine was given this key and IV *)
| Accepted (eid : N) (key : list N)       (* a message was decrypted with this key *)
| Failed (st : sm_status)
| Quiet.

Definition outcome (st : sm_status) (e : event) : event := match st with SmOk => e | _ => Failed st end.

Definition key_of (t : table) (eid : N) : list N :=
  match get_session t eid with Some i => e_key (at_ t i) | None => [] end.

Definition same_bytes (a b : list N) : bool := if list_eq_dec N.eq_dec a b then true else false.

Definition step (pairing : list N) (store : bool) (t : table) (o : op) : table * event :=
  match o with
  | OpAdd eid a b => let '(t', st) := add_session t eid a b in (t', outcome st (Added eid))
  | OpEstablish m v =>
    let '(t', _, st, _) := establish t m v in (t', outcome st (Agreed (m_eid m) (key_of t' (m_eid m))))
  | OpEncrypt m o =>
    let '(t', _, st, u) := encrypt t m o in
    (t', match u with Some (k, iv) => Encrypted (m_eid m) k iv | None => outcome st Quiet end)
  | OpDecrypt m f => let '(_, st) := decrypt t m f in (t, outcome st (Accepted (m_eid m) (key_of t (m_eid m))))
  | OpReset eid mac f => let '(t', st) := reset_session t eid mac f in (t', outcome st (Removed eid))
  | OpPair eid mac v =>
    let '(t', st, _) := setup_paired pairing store t eid mac v in
    (t', if same_bytes (key_of t eid) (key_of t' eid) then outcome st Quiet else Rekeyed eid (key_of t' eid))
  | OpSync eid nonce room f => let '(st, _) := session_sync t eid nonce room f in (t, outcome st Quiet)
  end.

Fixpoint run (pairing : list N) (store : bool) (t : table) (l : list op) : table * list event :=
  match l with
  | [] => (t, [])
  | o :: r =>
    let '(t1, e) := step pairing store t o in
    let '(t2, es) := run pairing store t1 r in (t2, e :: es)
  end.
End Session.
