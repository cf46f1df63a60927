(** What the session properties talk about: what a peer's session looks like to someone who only
    watches the events. *)
From Coq Require Import List NArith Bool.
From Verif Require Import Base Session_Model.
Import ListNotations.

Inductive peer := NoSession | Pending | Active (key : list N).

(** The session with [eid] after the events, oldest first. *)
Definition observe (eid : N) (p : peer) (e : event) : peer :=
  match e with
  | Added x => if (x =? eid)%N then Pending else p
  | Agreed x k | Rekeyed x k => if (x =? eid)%N then Active k else p
  | Removed x => if (x =? eid)%N then NoSession else p
  | _ => p
  end.
Definition view (es : list event) (eid : N) : peer := fold_left (observe eid) es NoSession.

(** All session keys that came into force. *)
Definition agreed_keys (es : list event) : list (list N) :=
  flat_map (fun e => match e with Agreed _ k | Rekeyed _ k => [k] | _ => [] end) es.
(** Every key and IV pair given to the cipher. *)
Definition uses (es : list event) : list (list N * list N) :=
  flat_map (fun e => match e with Encrypted _ k iv => [(k, iv)] | _ => [] end) es.

(** Entry [i] of the table is a session with [eid]. *)
Definition session_at (t : table) (i : nat) (eid : N) : Prop :=
  i < length t /\ e_eid (at_ t i) = eid /\ e_state (at_ t i) <> Unused.

(** The peer's view agrees with the table. *)
Definition reflected (t : table) (eid : N) (p : peer) : Prop :=
  match p with
  | NoSession => forall i, ~ session_at t i eid
  | Pending => exists i, session_at t i eid /\ e_state (at_ t i) = Setup
  | Active k => exists i, session_at t i eid /\ usable (e_state (at_ t i)) = true /\ e_key (at_ t i) = k
  end.

(** The peer a call is about. *)
Definition op_eid (o : op) : N :=
  match o with
  | OpAdd e _ _ | OpReset e _ _ | OpPair e _ _ | OpSync e _ _ _ => e
  | OpEstablish m _ | OpEncrypt m _ | OpDecrypt m _ => m_eid m
  end.

(** An authenticated cipher with 16 byte tags that decrypts what it encrypted. *)
Definition cipher (enc : list N -> list N -> list N -> list N * list N)
  (dec : list N -> list N -> list N -> list N -> option (list N)) : Prop :=
  forall k iv p, length (fst (enc k iv p)) = length p /\ length (snd (enc k iv p)) = 16 /\
    dec k iv (fst (enc k iv p)) (snd (enc k iv p)) = Some p.

(** A key exchange response (cerberus_protocol_optional_commands.h:471-519) after its header: public key, signature
    and HMAC, each after its length. *)
Definition exchange_body (key sig mac : list N) : list N :=
  [0%N] ++ le16 (N.of_nat (length key)) ++ key ++ le16 (N.of_nat (length sig)) ++ sig ++
  le16 (N.of_nat (length mac)) ++ mac.
