(** Property C25: observers. *)
From Coq Require Import List NArith Bool Arith Lia.
From Verif Require Import Base Observable_Model Observable_Spec Observable_Proofs.
Import ListNotations.
Local Open Scope N_scope.

(** After any history of calls a notification calls exactly the observers that are registered and have a
    handler, each once. *)
Theorem C25_notified_once : forall history s handler, oruns history s ->
  exists called, notify_observers s handler = Some called /\ NoDup called /\
    forall o, In o called <-> (registered o (rev history) /\ handler o = true).
Proof.
  intros history s handler R. destruct (runs_oinv history s R) as (e & I & E). exists (filter handler (map (who s) e)). split; [|split].
  - unfold notify_observers. apply notify_spec; try apply I. rewrite (o_len _ _ I). lia.
  - apply NoDup_filter, I.
  - intros o. rewrite filter_In, E, order_registered. tauto.
Qed.
Print Assumptions C25_notified_once.

(** They are called in the order in which they were registered; registering again changes nothing. *)
Theorem C25_registration_order : forall history s handler, oruns history s ->
  notify_observers s handler = Some (filter handler (fold_left order_step history [])).
Proof.
  intros history s handler R. destruct (runs_oinv history s R) as (e & I & E). rewrite <- E.
  unfold notify_observers. apply notify_spec; try apply I. rewrite (o_len _ _ I). lia.
Qed.
Print Assumptions C25_registration_order.

(** Every call returns without touching memory it does not own: an add with memory succeeds or is refused
    for a NULL observer, a remove succeeds or is refused for a NULL observer. *)
Theorem C25_calls_return : forall history s, oruns history s ->
  (forall a o, a <> 0 -> ~ In a (taken s) -> o <> 0 -> exists s', add_observer s a o = Done s' /\ ostep s (Add o true) s') /\
  (forall o, o <> 0 -> exists s', remove_observer s o = Done s' /\ ostep s (Remove o) s').
Proof.
  intros history s R. destruct (runs_oinv history s R) as (e & I & E). split.
  - intros a o Ha Hn Ho. destruct (add_spec s e a o I Ha Hn Ho) as (s' & e' & E1 & _). exists s'. split; [exact E1|]. now apply (SAdd s o a).
  - intros o Ho. destruct (remove_spec s e o I Ho) as (s' & e' & E1 & _). exists s'. split; [exact E1|]. now constructor.
Qed.
Print Assumptions C25_calls_return.

(** One list entry is allocated per registered observer, and releasing the object frees all of them. *)
Theorem C25_no_leak : forall history s, oruns history s ->
  length (taken s) = length (fold_left order_step history []) /\
  exists s', release (S (length (taken s))) s = Some s' /\ taken s' = [] /\ head s' = 0.
Proof.
  intros history s R. destruct (runs_oinv history s R) as (e & I & E). split.
  - rewrite <- E, map_length. apply I.
  - apply (release_spec e); try apply I. rewrite (o_len _ _ I). lia.
Qed.
Print Assumptions C25_no_leak.

(** Three observers are added, one of them twice, one is removed and added again. *)
Example C25_ex : exists s, oruns [Add 7 true; Add 8 true; Add 7 true; Add 9 true; Remove 7; Add 5 false; Add 7 true] s /\
  notify_observers s (fun o => negb (o =? 9)) = Some [8; 7].
Proof.
  eexists. split.
  - change [Add 7 true; Add 8 true; Add 7 true; Add 9 true; Remove 7; Add 5 false; Add 7 true]
      with (((((((([] ++ [Add 7 true]) ++ [Add 8 true]) ++ [Add 7 true]) ++ [Add 9 true]) ++ [Remove 7]) ++ [Add 5 false]) ++ [Add 7 true])).
    eapply ORStep; [eapply ORStep; [eapply ORStep; [eapply ORStep; [eapply ORStep; [eapply ORStep; [eapply ORStep; [apply ORStart|]|]|]|]|]|]|].
    + apply (SAdd _ 7 100); [discriminate|intros []|vm_compute; reflexivity].
    + apply (SAdd _ 8 200); [discriminate|cbn; intuition discriminate|vm_compute; reflexivity].
    + apply (SAdd _ 7 300); [discriminate|cbn; intuition discriminate|vm_compute; reflexivity].
    + apply (SAdd _ 9 300); [discriminate|cbn; intuition discriminate|vm_compute; reflexivity].
    + apply SRemove. vm_compute. reflexivity.
    + apply SAddFail. left. reflexivity.
    + apply (SAdd _ 7 100); [discriminate|cbn; intuition discriminate|vm_compute; reflexivity].
  - vm_compute. reflexivity.
Qed.
