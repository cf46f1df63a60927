(** C19: late responses. *)
From Coq Require Import List NArith ZArith Lia Bool Arith.
From Verif Require Import Base FlashStore_Layout_Proofs Mctp_Model MctpAsync_Model MctpAsync_Proofs.
Import ListNotations.
Local Open Scope nat_scope.

(** In every schedule, a response is copied to (or measured against) a descriptor only while the request it was
    given for is still in progress: after [Returned i] nothing touches the descriptor of request i. *)
Theorem C19_returned_request_untouched : forall l s es i n k e, arun ainit l = Some (s, es) ->
  nth_error es n = Some (Returned i) -> n < k -> nth_error es k = Some e ->
  forall t, e <> Wrote i t /\ e <> TooBigFor i t.
Proof. exact returned_untouched. Qed.
Print Assumptions C19_returned_request_untouched.

(** With no request in progress and no unanswered request that was sent without waiting, every response
    packet is dropped at the check. *)
Theorem C19_late_response_dropped : forall l s es t s' e, arun ainit l = Some (s, es) ->
  a_req s = None -> a_rsp s <> RspPending -> astep s (Check t) = Some (s', e) -> s' = s /\ e = Nothing.
Proof. exact late_dropped. Qed.
Print Assumptions C19_late_response_dropped.

(** If no requester runs between the check of a response's last packet and its handling, NULL is never
    dereferenced, and every response goes to the request that was sent with its tag and is still in
    progress. *)
Theorem C19_adjacent_check : forall l s es,
  (forall n f, nth_error l (S n) = Some (Handle f) -> exists t, nth_error l n = Some (Check t)) ->
  arun ainit l = Some (s, es) -> forall n e, nth_error es n = Some e ->
  e <> NullDereference /\
  forall i t, e = Wrote i t \/ e = TooBigFor i t -> In (Registered i t) (firstn n es) /\ ~ In (Returned i) (firstn n es).
Proof. exact adjacent_safe. Qed.
Print Assumptions C19_adjacent_check.

(** Otherwise: the requester times out and returns after the last packet was checked and before the response is
    handled, which then reads through a NULL response_msg. *)
Theorem C19_null_dereference_refuted : exists l s es,
  arun ainit l = Some (s, es) /\ In NullDereference es.
Proof.
  exists [Begin; Register true; Sent; Check 0; WakeUp; Return; Handle true]. do 2 eexists. split; [vm_compute; reflexivity|]. cbn. auto 10.
Qed.
Print Assumptions C19_null_dereference_refuted.

(** Or another request has been sent by then, and gets the response to the first one as its own. *)
Theorem C19_wrong_request_refuted : exists l s es i t t',
  arun ainit l = Some (s, es) /\ In (Wrote i t) es /\ In (Registered i t') es /\ t <> t' /\
  ~ In (Registered i t) es.
Proof.
  exists [Begin; Register true; Sent; Check 0; WakeUp; Return; Begin; Register true; Handle true].
  do 2 eexists. exists 1, 0%N, 1%N. split; [vm_compute; reflexivity|]. cbn. splits; auto 10; [discriminate|].
  intuition discriminate.
Qed.
Print Assumptions C19_wrong_request_refuted.

(** A request that is answered, and one whose answer comes too late. *)
Example C19_adjacent_check_ex : exists s es,
  arun ainit [Begin; Register true; Sent; Check 0; Handle true; WakeUp; Return; Begin; Register true; Sent; WakeUp; Return; Check 1] = Some (s, es) /\
  In (Wrote 0 0) es /\ In (Returned 1) es /\ ~ In (Accepted 1) es.
Proof. do 2 eexists. split; [vm_compute; reflexivity|]. cbn. splits; auto 15. intuition discriminate. Qed.
