(** What the properties of SPDM sessions talk about. *)
From Coq Require Import List NArith Bool Arith.
From Verif Require Import Base SpdmSession_Model.
Import ListNotations.

(** The keys derived in a history, and the pairs of key and IV used to seal and to open messages *)
Definition derived (t : list event) : list keys := flat_map (fun e => match e with Derived k => [k] | _ => [] end) t.
Definition seals (t : list event) : list (list N * list N) := flat_map (fun e => match e with Sealed k iv _ _ => [(k, iv)] | _ => [] end) t.
Definition opens (t : list event) : list (list N * list N) := flat_map (fun e => match e with Opened k iv _ _ _ _ => [(k, iv)] | _ => [] end) t.

(** The key derivation never gives the same key twice, and gives salts of the length of an IV. *)
Definition fresh_derived (t : list event) : Prop :=
  NoDup (map (fun k => dkey (rsp k)) (derived t)) /\ NoDup (map (fun k => dkey (req k)) (derived t)) /\
  Forall (fun k => length (salt (req k)) = 12 /\ length (salt (rsp k)) = 12) (derived t).

(** The IV of message [n]: the salt with [n] added to its first eight bytes without carry (DSP0277, section 4.2.3) *)
Definition iv_of (sl : list N) (n : N) : list N :=
  map (fun i => if i <? 8 then N.lxor (nth i sl 0%N) (n / 256 ^ N.of_nat i mod 256)%N else nth i sl 0%N) (seq 0 12).

(** A secured message on the wire: session id, length of what follows, and the sealed application data with its length, and the tag *)
Definition header (id : N) (app : list N) : list N := le32 id ++ le16 (N.of_nat (length app + 18)).
Definition secured (seal tag : list N -> list N -> list N -> list N -> list N) (id : N) (k sl : list N) (n : N) (app : list N) : list N :=
  let aad := header id app in
  let ct := seal k (iv_of sl n) aad (le16 (N.of_nat (length app)) ++ app) in
  aad ++ ct ++ tag k (iv_of sl n) aad ct.

(** AES-GCM: what was sealed can be opened; lengths are kept; tags have 16 bytes *)
Definition gcm (seal tag : list N -> list N -> list N -> list N -> list N) (opn : list N -> list N -> list N -> list N -> list N -> option (list N)) : Prop :=
  (forall k iv aad pt, length (seal k iv aad pt) = length pt) /\ (forall k iv aad ct, length (tag k iv aad ct) = 16) /\
  (forall k iv aad pt, opn k iv aad (seal k iv aad pt) (tag k iv aad (seal k iv aad pt)) = Some pt) /\
  (forall k iv aad ct tg pt, opn k iv aad ct tg = Some pt -> length pt = length ct).

(** A request with nothing failing *)
Definition all_works : works := Works true true true true.

(** A vendor defined request that the peer of a session seals as its message [n], in a buffer with enough room for the reply *)
Definition asks (seal tag : list N -> list N -> list N -> list N -> list N) (code : N) (id : N) (d : dir) (n : N) (app : list N) (r : request) : Prop :=
  encrypted r = true /\ wks r = all_works /\ off (message r) + plen (message r) <= length (buf (message r)) /\
  payload (message r) = secured seal tag id (dkey d) (salt d) n app /\ 2 <= length app /\ nth 1 app 0%N = code /\
  (N.of_nat (length app) + 18 < 65536)%N /\ h_ok (handle r) = true /\
  length (h_rest (handle r)) + 26 <= maxr (message r) /\ off (message r) + maxr (message r) <= length (buf (message r)).

(** A session is in a slot. *)
Definition holds (s : state) (i : nat) (x : sess) : Prop := nth_error (slots s) i = Some (Some x).
