(** What TDISP requires of the nonces, in terms of what was sent, received and
    done by the driver. *)
From Coq Require Import List NArith Bool Arith.
From Verif Require Import Base Tdisp_Model.
Import ListNotations.
Local Open Scope nat_scope.

(** A reply that grants a lock: version 1.0, type 3, reserved bytes clear, the
    function, and 32 bytes of nonce. *)
Definition lock_granted (r : result) (id nonce : list N) : Prop :=
  r = Reply ([0x10%N; 0x03%N; 0%N; 0%N] ++ id ++ repeat 0%N 8 ++ nonce).

(** The driver clears the context of [f] in an event: by itself, or when it is
    called during a request. *)
Definition clears (o : observation) (f : N) : Prop :=
  match o_event o with
  | Cleared fs => fs f = true
  | Request _ _ e _ => o_calls o <> [] /\ e_clears e f = true
  end.

(** In a history (latest first) [nonce] is outstanding for [f]: it was sent in
    the reply to a request to lock [f], and the driver has not cleared the
    context of [f] since. *)
Inductive outstanding (index : N -> option N) (f : N) (nonce : list N) : list observation -> Prop :=
| Granted encrypted room e p r t seen :
    type_of p = 0x83%N -> index (bdf_of p) = Some f -> lock_granted r (window 4 4 p) nonce ->
    outstanding index f nonce (Seen (Request encrypted room e p) (Some r) t :: seen)
| Kept o seen : outstanding index f nonce seen -> ~ clears o f -> outstanding index f nonce (o :: seen).
