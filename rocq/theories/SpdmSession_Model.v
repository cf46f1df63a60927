(** Model of core/spdm/spdm_secure_session_manager.c, and of the parts of core/spdm/cmd_interface_spdm_responder.c and core/spdm/spdm_commands.c
    that open, use and close SPDM sessions.

    One step is one call of process_request.  Messages are in a buffer with the payload at an offset, as in struct cmd_interface_msg; accesses
    outside of the buffer are [Fault].  AES-GCM is given by [seal], [tag] and [opn]; every call of the engine may fail.  Derived keys come with the
    request that has them derived, and are arbitrary.  What handlers answer, and whether they fail, also comes with the request.
    Simplifications: AES-256-GCM, the only supported cipher suite, was negotiated; there is no key update, so that backup keys are never valid
    (spdm_secure_session_manager.c:929); transcripts, secrets and observers are not modelled; a session that is created is either in the
    handshake when the request is done or released again (spdm_commands.c:3950-3966); a failed decryption leaves the buffer as it is;
    locks are not modelled. *)
From Coq Require Import List NArith Bool Arith.
From Verif Require Import Base.
Import ListNotations.

(** spdm_secure_session_manager.h:209-254: the key, salt and sequence number of one direction, and the pair for requests and responses *)
Record dir := Dir { dkey : list N; salt : list N; count : N }.
Record keys := Keys { req : dir; rsp : dir }.
(** Lines 90-95; SPDM_SESSION_STATE_NOT_STARTED is not seen between requests. *)
Inductive phase := Handshaking | Established.
(** Lines 279-340: id, whether the type is SPDM_SESSION_TYPE_ENC_MAC, state and keys; [None] is zeroed. *)
Record sess := Sess { sid : N; enc_mac : bool; ph : phase; hs : option keys; dat : option keys }.
(** The sessions; current_session_count; the id of the last secured request if it is valid; current_local_session_id (spdm_state.h:216) *)
Record state := St { slots : list (option sess); live : nat; last : option N; local : N }.

(** cmd_interface.h: the buffer, offset and length of the payload, and max_response *)
Record msg := Msg { buf : list N; off : nat; plen : nat; maxr : nat }.

(** What handlers do: whether the request is fine and nothing fails; the derived keys, the session id of the requester and the capabilities;
    the version, code and rest of the response. *)
Record handler := Handler { h_ok : bool; h_keys : keys; h_req : N; h_enc : bool; h_ver : N; h_code : N; h_rest : list N }.
(** Whether set_key and the operation of the engine work *)
Record works := Works { k_open : bool; w_open : bool; k_seal : bool; w_seal : bool }.
Record request := Request { encrypted : bool; message : msg; handle : handler; wks : works }.

(** What is done with keys: keys are derived, a message is opened with key, IV, additional data and tag, and a message is sealed *)
Inductive event :=
| Derived (ks : keys)
| Opened (k iv aad ct tg pt : list N)
| Sealed (k iv aad pt : list N).
Inductive outcome := Fault | Silent | Sent (m : msg).

Definition zeros : dir := Dir (repeat 0%N 32) (repeat 0%N 12) 0.
Definition the (o : option keys) : keys := match o with Some k => k | None => Keys zeros zeros end.
Definition current (x : sess) : keys := match ph x with Handshaking => the (hs x) | Established => the (dat x) end.
Definition set_current (x : sess) (k : keys) : sess :=
  match ph x with
  | Handshaking => Sess (sid x) (enc_mac x) (ph x) (Some k) (dat x)
  | Established => Sess (sid x) (enc_mac x) (ph x) (hs x) (Some k)
  end.
Definition next (d : dir) : dir := Dir (dkey d) (salt d) (count d + 1).

(** spdm_secure_session_manager.c:272-297, get_session: the index of the first slot with the id *)
Fixpoint find_from (i : nat) (l : list (option sess)) (id : N) : option (nat * sess) :=
  match l with
  | [] => None
  | Some x :: l => if (sid x =? id)%N then Some (i, x) else find_from (S i) l id
  | None :: l => find_from (S i) l id
  end.
Definition find (s : state) (id : N) : option (nat * sess) := if (id =? 0)%N then None else find_from 0 (slots s) id.
Fixpoint free_from (i : nat) (l : list (option sess)) : option nat :=
  match l with [] => None | None :: _ => Some i | Some _ :: l => free_from (S i) l end.
Definition set_slot (s : state) (i : nat) (x : option sess) : state := St (upd (slots s) i x) (live s) (last s) (local s).
Definition set_last (s : state) (o : option N) : state := St (slots s) (live s) o (local s).

(** Lines 84-137, create_session *)
Definition create (s : state) (id : N) (e : bool) (k : keys) : option state :=
  if (id =? 0)%N then None
  else if length (slots s) <=? live s then None
  else match find s id with
       | Some _ => None
       | None =>
         match free_from 0 (slots s) with
         | Some i => Some (St (upd (slots s) i (Some (Sess id e Handshaking (Some k) None))) (S (live s)) (last s) (local s))
         | None => None
         end
       end.
(** Lines 139-172, release_session *)
Definition release (s : state) (id : N) : state :=
  match find s id with Some (i, _) => St (upd (slots s) i None) (live s - 1) (last s) (local s) | None => s end.
(** Lines 221-261, reset, with spdm_responder_init_state (spdm_state.c:16-34) *)
Definition reset (s : state) : state := St (map (fun _ => None) (slots s)) 0 None 0.

(** Lines 831-860, generate_iv; SPDM_MAX_SECURE_SESSION_SEQUENCE_NUMBER is UINT64_MAX *)
Definition le64 (x : N) : list N := le32 (x mod 2 ^ 32) ++ le32 (x / 2 ^ 32).
Definition xors (a b : list N) : list N := map (fun p => N.lxor (fst p) (snd p)) (combine a b).
Definition make_iv (sl : list N) (n : N) : list N := xors (firstn 8 sl) (le64 n) ++ skipn 8 sl.
Definition max_count : N := 2 ^ 64 - 1.

Definition payload (m : msg) : list N := window (off m) (plen m) (buf m).
(** spdm_commands.c:92-117, spdm_generate_error_response, and responses written by the handlers *)
Definition put (m : msg) (l : list N) : option msg :=
  if off m + length l <=? length (buf m) then Some (Msg (splice (buf m) (off m) l) (off m) (length l) (maxr m)) else None.
Definition error_reply (v e : N) : list N := [(v mod 16 + 16)%N; 127%N; e; 0%N].

Section Aead.
Variable seal : list N -> list N -> list N -> list N -> list N.
Variable tag : list N -> list N -> list N -> list N -> list N.
Variable opn : list N -> list N -> list N -> list N -> list N -> option (list N).

(** Lines 877-961, decrypt_message.  [None] is an error; the message is moved to the application data. *)
Definition decrypt (m : msg) (d : dir) (w : works) : option msg * list event :=
  if plen m <? 6 + 16 then (None, [])
  else
    let p := payload m in
    let len := N.to_nat (le_value (window 4 2 p)) in
    if plen m - 6 <? len then (None, [])
    else if len <? 16 then (None, [])
    else
      let cs := len - 16 in
      let iv := make_iv (salt d) (count d) in
      let aad := firstn 6 p in
      let ct := window 6 cs p in
      let tg := window (6 + cs) 16 p in
      if negb (k_open w && w_open w) then (None, [])
      else match opn (dkey d) iv aad ct tg with
           | None => (None, [])
           | Some pt =>
             let b := splice (buf m) (off m + 6) pt in
             let n := N.to_nat (le_value (window (off m + 6) 2 b)) in
             ((if cs <? n then None else Some (Msg b (off m + 8) n (maxr m))), [Opened (dkey d) iv aad ct tg pt])
           end.

(** Lines 963-1060, decode_secure_message *)
Definition decode (s : state) (m : msg) (w : works) : state * option msg * list event :=
  let s0 := set_last s None in
  if plen m <? 4 then (s0, None, [])
  else
    match find s0 (le_value (window 0 4 (payload m))) with
    | None => (s0, None, [])
    | Some (i, x) =>
      let k := current x in
      if (max_count <=? count (req k))%N then (s0, None, [])
      else
        let s1 := set_slot s0 i (Some (set_current x (Keys (next (req k)) (rsp k)))) in
        if enc_mac x then
          let '(m', ev) := decrypt m (req k) w in (set_last s1 (Some (sid x)), m', ev)
        else (s1, None, [])
    end.

(** Lines 1079-1167, encrypt_message, with cmd_interface_msg_add_protocol_header (cmd_interface.c:112-131).  The first result is the message
    afterwards, [None] if the buffer is left; the second whether it worked. *)
Definition encrypt (m : msg) (id : N) (d : dir) (w : works) : option msg * bool * list event :=
  let total := 6 + (2 + plen m) + 16 in
  if maxr m <? total then (Some m, false, [])
  else
    let o := off m - Nat.min 8 (off m) in
    let aad := le32 id ++ le16 (N.of_nat (2 + plen m + 16)) in
    let b := splice (buf m) o (aad ++ le16 (N.of_nat (plen m))) in
    let m1 := Msg b o (plen m + Nat.min 8 (off m)) (maxr m) in
    if negb (k_seal w) then (Some m1, false, [])
    else
      let pt := window (o + 6) (2 + plen m) b in
      let iv := make_iv (salt d) (count d) in
      if negb (w_seal w) then (Some m1, false, [])
      else if length b <? o + total then (None, false, [Sealed (dkey d) iv aad pt])
      else
        let ct := seal (dkey d) iv aad pt in
        (Some (Msg (splice b (o + 6) (ct ++ tag (dkey d) iv aad ct)) o total (maxr m)), true, [Sealed (dkey d) iv aad pt]).

(** Lines 1169-1303, encode_secure_message, with set_session_state (lines 188-219) *)
Definition encode (s : state) (m : msg) (w : works) : state * option msg * bool * list event :=
  match last s with
  | None => (s, Some m, false, [])
  | Some id =>
    match find s id with
    | None => (s, Some m, false, [])
    | Some (i, x) =>
      let k := current x in
      if (max_count <=? count (rsp k))%N then (s, Some m, false, [])
      else
        let x1 := set_current x (Keys (req k) (next (rsp k))) in
        let s1 := set_slot s i (Some x1) in
        let code := nth (off m + 1) (buf m) 0%N in
        if enc_mac x then
          match encrypt m (sid x) (rsp k) w with
          | (m', true, ev) =>
            let s2 :=
              if (code =? 101)%N then
                match ph x1 with
                | Handshaking => set_slot s1 i (Some (Sess (sid x1) (enc_mac x1) Established None (dat x1)))
                | Established => s1
                end
              else if (code =? 108)%N then release s1 id
              else s1 in
            (s2, m', true, ev)
          | (m', false, ev) => (s1, m', false, ev)
          end
        else (s1, Some m, false, [])
    end
  end.

(** The handlers of spdm_commands.c: GET_VERSION (lines 1366-1480), KEY_EXCHANGE (3570-3978), FINISH (3988-4185), END_SESSION (4195-4313),
    VENDOR_DEFINED (4323-4445); no other handler changes sessions or answers with the code of FINISH or END_SESSION. *)
Definition in_session (s : state) (p : phase) : option (nat * sess) :=
  match last s with
  | None => None
  | Some id =>
    match find s id with
    | Some (i, x) => match ph x, p with Handshaking, Handshaking | Established, Established => Some (i, x) | _, _ => None end
    | None => None
    end
  end.
Definition reply (h : handler) (code : N) : list N := h_ver h :: code :: h_rest h.
Definition fresh (d : dir) : dir := Dir (dkey d) (salt d) 0.
Definition fresh_keys (k : keys) : keys := Keys (fresh (req k)) (fresh (rsp k)).
Definition dispatch (s : state) (e : bool) (code : N) (h : handler) : state * list N * list event :=
  let bad := error_reply (h_ver h) (h_code h) in
  if (code =? 132)%N then
    if h_ok h then (reset s, reply h 4, []) else (s, bad, [])
  else if (code =? 228)%N then
    match last s with
    | Some _ => (s, bad, [])
    | None =>
      if h_ok h then
        let id := (((local s + 1) mod 2 ^ 16) * 2 ^ 16 + h_req h mod 2 ^ 16)%N in
        match create s id (h_enc h) (fresh_keys (h_keys h)) with
        | Some s => (St (slots s) (live s) (last s) ((local s + 1) mod 2 ^ 16), reply h 100, [Derived (fresh_keys (h_keys h))])
        | None => (s, bad, [])
        end
      else (s, bad, [])
    end
  else if (code =? 229)%N then
    match in_session s Handshaking with
    | Some (i, x) =>
      if h_ok h then (set_slot s i (Some (Sess (sid x) (enc_mac x) (ph x) (hs x) (Some (fresh_keys (h_keys h))))), reply h 101, [Derived (fresh_keys (h_keys h))]) else (s, bad, [])
    | None => (s, bad, [])
    end
  else if (code =? 236)%N then
    match in_session s Established with
    | Some _ => if h_ok h then (s, reply h 108, []) else (s, bad, [])
    | None => (s, bad, [])
    end
  else if (code =? 254)%N then
    match e, in_session s Established with
    | true, None => (s, bad, [])
    | _, _ => if h_ok h then (s, reply h 126, []) else (s, bad, [])
    end
  else if h_ok h && negb ((h_code h =? 101)%N || (h_code h =? 108)%N) then (s, reply h (h_code h), [])
  else (s, bad, []).

(** cmd_interface_spdm_responder.c:27-175, process_request *)
Definition sent (o : option msg) : outcome := match o with Some m => Sent m | None => Fault end.
Definition process (s : state) (r : request) : state * list event * outcome :=
  let s0 := set_last s None in
  let m := message r in
  let '(s1, d, ev1) := if encrypted r then decode s0 m (wks r) else (s0, Some m, []) in
  match d with
  | None => (s1, ev1, sent (put m (error_reply 0 6)))
  | Some m1 =>
    if plen m1 <? 2 then (s1, ev1, Silent)
    else
      let '(s2, l, ev2) := dispatch s1 (encrypted r) (nth 1 (payload m1) 0%N) (handle r) in
      match put m1 l with
      | None => (s2, ev1 ++ ev2, Fault)
      | Some m2 =>
        if encrypted r then
          let '(s3, m3, ok, ev3) := encode s2 m2 (wks r) in
          (s3, ev1 ++ ev2 ++ ev3,
           if ok then sent m3 else match m3 with Some m3 => sent (put m3 (error_reply 0 6)) | None => Fault end)
        else (s2, ev1 ++ ev2, Sent m2)
      end
  end.

Fixpoint run (s : state) (l : list request) : state * list event * list outcome :=
  match l with
  | [] => (s, [], [])
  | r :: l => let '(s, e, o) := process s r in let '(s, es, os) := run s l in (s, e ++ es, o :: os)
  end.
End Aead.

Definition start (n : nat) : state := St (repeat None n) 0 None 0.
