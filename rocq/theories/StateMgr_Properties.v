(** C04, C05, C06: the non-volatile state survives damage, restarts and power loss. *)
From Coq Require Import List NArith Lia Bool Arith.
From Verif Require Import Base Flash_Base StateMgr_Model StateMgr_Spec StateMgr_Proofs
  StateMgr_Flash_Proofs StateMgr_Store_Proofs.
Import ListNotations.
Local Open Scope N_scope.

(** ** C04 *)

(** Whatever happens to one of the three copies (and to the trailing word), the stored word is read
    back. *)
Theorem C04_one_copy_damaged : forall s x w3, stored_form s ->
  fst (fst (read_state_bits (x, s, s, w3) false)) = s /\
  fst (fst (read_state_bits (s, x, s, w3) false)) = s /\
  fst (fst (read_state_bits (s, s, x, w3) false)) = s.
Proof. intros. repeat split; apply majority_two; auto. Qed.
Print Assumptions C04_one_copy_damaged.

(** More generally each bit position may be damaged in a different copy, and the two format markers
    may be damaged in any way that leaves bit 6 clear in some copy. *)
Theorem C04_bitwise_majority : forall s e0 e1 e2 w3, stored_form s ->
  (forall i, i < 16 -> i <> 6 -> i <> 7 ->
     (N.testbit e0 i = N.testbit s i /\ N.testbit e1 i = N.testbit s i) \/
     (N.testbit e0 i = N.testbit s i /\ N.testbit e2 i = N.testbit s i) \/
     (N.testbit e1 i = N.testbit s i /\ N.testbit e2 i = N.testbit s i)) ->
  ~ (N.testbit e0 6 = true /\ N.testbit e1 6 = true /\ N.testbit e2 6 = true) ->
  fst (fst (read_state_bits (e0, e1, e2, w3) false)) = s.
Proof. intros. now apply majority_general. Qed.
Print Assumptions C04_bitwise_majority.

(** Every word the manager stores has the marked form and carries the state unchanged. *)
Theorem C04_stored_words_are_marked : forall v, v < 65536 ->
  stored_form (store_word v) /\ same_state (store_word v) v.
Proof. intros. split; [now apply store_word_form|apply store_word_same]. Qed.
Print Assumptions C04_stored_words_are_marked.

Example C04_example : stored_form 0xabad /\
  fst (fst (read_state_bits (0xabad, 0xffff, 0xabad, 0) false)) = 0xabad /\
  fst (fst (read_state_bits (0xabac, 0xabbd, 0xa3ad, 0x55) false)) = 0xabad.
Proof. vm_compute. intuition discriminate. Qed.

(** ** C05 *)

(** For every sequence of state changes, stores (some of which fail) and restarts of a device that
    started from blank flash, a restart reports the last state whose store succeeded. *)
Theorem C05_durable : forall base K m0 l, 2 <= K -> blank_on m0 base (2 * (8 * K)) ->
  Forall op_ok l ->
  let '((m, s), v) := run base (8 * K) m0 l in
  same_state (nv_state (snd (start base (8 * K) m))) v.
Proof.
  intros base K m0 l HK Hb HO. unfold run.
  pose proof (start_inv base (8 * K) K eq_refl HK m0 (or_introl Hb)) as (A & B & C).
  pose proof (run_inv base (8 * K) K eq_refl HK l (start base (8 * K) m0) 65535 A) as R.
  destruct (fold_left _ _ _) as [[m s] v].
  destruct R as (R1 & R2); auto.
  - rewrite B, (recovered_fresh base (8 * K) K eq_refl HK m0 Hb). intros i _ _. reflexivity.
  - rewrite (proj2 (proj2 (start_inv base (8 * K) K eq_refl HK m (inv_good _ _ _ _ _ R1)))). exact R2.
Qed.
Print Assumptions C05_durable.

(** In particular the active manifest region is the one last saved. *)
Theorem C05_active_region_durable : forall base K m0 l bit, 2 <= K ->
  blank_on m0 base (2 * (8 * K)) -> Forall op_ok l -> In bit [1; 2; 4; 8; 16; 32] ->
  let '((m, s), v) := run base (8 * K) m0 l in
  get_active (snd (start base (8 * K) m)) bit = (if N.land v bit =? 0 then 1 else 0).
Proof.
  intros base K m0 l bit HK Hb HO Hbit.
  pose proof (C05_durable base K m0 l HK Hb HO) as D.
  destruct (run base (8 * K) m0 l) as [[m s] v].
  unfold get_active. replace (N.land (nv_state (snd (start base (8 * K) m))) bit) with (N.land v bit); auto.
  apply N.bits_inj. intro i. rewrite !N.land_spec.
  destruct (N.eq_dec i 6) as [->|]; [|destruct (N.eq_dec i 7) as [->|]; [|now rewrite D]].
  - cbn [In] in Hbit. intuition subst; rewrite !andb_false_r; reflexivity.
  - cbn [In] in Hbit. intuition subst; rewrite !andb_false_r; reflexivity.
Qed.
Print Assumptions C05_active_region_durable.

(** A store that is rejected because the next sector is not known to be blank succeeds when it is
    tried again. *)
Theorem C05_retry_succeeds : forall base K m s ops s', 2 <= K -> history base (8 * K) (m, s) ->
  store base (8 * K) false false m s = (ops, StNotBlank, s') ->
  exists ops2 s2, store base (8 * K) false false (flash_run m ops) s' = (ops2, StOk, s2).
Proof.
  intros base K m s ops s' HK H E. eapply store_retry with (K := K); eauto.
  now apply history_inv.
Qed.
Print Assumptions C05_retry_succeeds.

(** Recording an active region changes that selection and no other; an unknown region is refused. *)
Theorem C05_save_active : forall s region bit bit', In bit [1; 2; 4; 8; 16; 32] -> In bit' [1; 2; 4; 8; 16; 32] ->
  let '(ok, s') := save_active s region bit in
  ok = (region <? 2) /\
  get_active s' bit' = (if ok && (bit' =? bit) then region else get_active s bit').
Proof.
  intros s region bit bit' H H'. unfold save_active.
  assert (T: forall k v, get_active (mk_sm (store_addr s) v (last_nv_stored s) (sector1_blank s) (sector2_blank s)) (2 ^ k)
             = if N.testbit v k then 0 else 1).
  { intros k v. unfold get_active. cbn [nv_state]. destruct (N.testbit v k) eqn:E.
    - destruct (N.eqb_spec (N.land v (2 ^ k)) 0) as [Z|]; auto.
      apply (f_equal (fun x => N.testbit x k)) in Z. rewrite N.land_spec, E, N.pow2_bits_true, N.bits_0 in Z. discriminate.
    - destruct (N.eqb_spec (N.land v (2 ^ k)) 0) as [|Z]; auto. exfalso. apply Z. apply N.bits_inj. intro i.
      rewrite N.land_spec, N.bits_0. destruct (N.eq_dec i k) as [->|]; [now rewrite E|].
      rewrite N.pow2_bits_false by auto. apply andb_false_r. }
  assert (P: forall b, In b [1; 2; 4; 8; 16; 32] -> exists k, b = 2 ^ k).
  { intros b Hb. cbn in Hb. destruct Hb as [<-|[<-|[<-|[<-|[<-|[<-|[]]]]]]]; [exists 0|exists 1|exists 2|exists 3|exists 4|exists 5]; reflexivity. }
  destruct (P _ H) as (k & ->). destruct (P _ H') as (k' & ->). clear P H H'.
  assert (E: (2 ^ k' =? 2 ^ k) = (k' =? k)).
  { destruct (N.eqb_spec k' k) as [->|NE]; [apply N.eqb_refl|]. apply N.eqb_neq. intros C.
    apply N.pow_inj_r in C; lia. }
  rewrite E. assert (G: get_active s (2 ^ k') = if N.testbit (nv_state s) k' then 0 else 1).
  { rewrite <- (T k' (nv_state s)). reflexivity. }
  destruct region as [|[q|q|]]; cbn [N.eqb N.ltb N.compare].
  - rewrite T, G, N.lor_spec, N.pow2_bits_eqb, (N.eqb_sym k k'). split; auto.
    destruct (N.eqb_spec k' k) as [->|]; [now rewrite orb_true_r|now rewrite orb_false_r].
  - split; [destruct q; reflexivity|reflexivity].
  - split; [destruct q; reflexivity|reflexivity].
  - rewrite T, G, N.ldiff_spec, N.pow2_bits_eqb, (N.eqb_sym k k'). split; auto.
    destruct (N.eqb_spec k' k) as [->|]; [now rewrite andb_false_r|now rewrite andb_true_r].
Qed.
Print Assumptions C05_save_active.

Definition blank_flash : image := fun _ => 255.

Example C05_example :
  let l := [OSet 1; OStore false; OSet 2; OStore false; OSet 3; OStore true; OStore false; ORestart;
            OSet 0x1234; OStore false; OStore false; OSet 7; OStore false; ORestart; OSet 9] in
  Forall op_ok l /\ blank_on blank_flash 4096 (2 * (8 * 2)) /\
  (let '((m, s), v) := run 4096 (8 * 2) blank_flash l in
   v = 7 /\ nv_state (snd (start 4096 (8 * 2) m)) = 0x87).
Proof.
  cbn zeta. split; [|split].
  - repeat constructor.
  - intros x _. reflexivity.
  - vm_compute. auto.
Qed.

(** ** C06 *)

(** At every point of every history, including ones with earlier power losses, losing power anywhere
    in a store leaves a flash from which the device starts with the previously recoverable state or
    with the state being stored. *)
Theorem C06_power_loss_atomic : forall base K m s m1, 2 <= K -> history base (8 * K) (m, s) ->
  power_loss m (fst (fst (store base (8 * K) false false m s))) m1 ->
  let after := nv_state (snd (start base (8 * K) m1)) in
  after = nv_state (snd (start base (8 * K) m)) \/ same_state after (nv_state s).
Proof.
  intros base K m s m1 HK H P.
  pose proof (history_inv base (8 * K) K eq_refl HK _ H) as HI.
  destruct (store base (8 * K) false false m s) as [[ops st] s'] eqn:E. cbn [fst] in P.
  pose proof (store_correct base (8 * K) K eq_refl HK m s false ops st s' HI E) as (_ & _ & _ & _ & X).
  destruct (X m1 P) as (G & R). cbn zeta.
  rewrite (proj2 (proj2 (start_inv base (8 * K) K eq_refl HK m1 G))).
  rewrite (proj2 (proj2 (start_inv base (8 * K) K eq_refl HK m (inv_good _ _ _ _ _ HI)))).
  destruct R as [R|R]; [left; exact R|right]. rewrite R. apply store_word_same.
Qed.
Print Assumptions C06_power_loss_atomic.

(** Losing power while starting up never changes what the next start reports. *)
Theorem C06_power_loss_at_start : forall base K m s m1, 2 <= K -> history base (8 * K) (m, s) ->
  power_loss m (fst (init_state base (8 * K) m)) m1 ->
  nv_state (snd (start base (8 * K) m1)) = nv_state (snd (start base (8 * K) m)).
Proof.
  intros base K m s m1 HK H P.
  pose proof (history_inv base (8 * K) K eq_refl HK _ H) as HI.
  pose proof (inv_good _ _ _ _ _ HI) as G.
  destruct (init_power_loss base (8 * K) K eq_refl HK m m1 G P) as (G1 & R).
  rewrite (proj2 (proj2 (start_inv base (8 * K) K eq_refl HK m1 G1))).
  rewrite (proj2 (proj2 (start_inv base (8 * K) K eq_refl HK m G))). exact R.
Qed.
Print Assumptions C06_power_loss_at_start.

(** The flash of a device that stored 1 and is now holding 2, with 16-byte sectors. *)
Definition stored_one : device := fst (run 0 (8 * 2) blank_flash [OSet 1; OStore false; OSet 2]).

(** Non-vacuity: the history exists, and both outcomes occur. *)
Example C06_example :
  nv_state (snd (start 0 16 (fst stored_one))) = 0x81 /\
  (exists m1, power_loss (fst stored_one)
                (fst (fst (store 0 16 false false (fst stored_one) (snd stored_one)))) m1 /\
              nv_state (snd (start 0 16 m1)) = 0x82).
Proof.
  split; [vm_compute; reflexivity|].
  exists (nor_write (fst stored_one) 8 (firstn 5 (entry_bytes 0x82))). split; [|vm_compute; reflexivity].
  replace (fst (fst (store 0 16 false false (fst stored_one) (snd stored_one))))
    with [FWrite 8 (entry_bytes 0x82)] by (vm_compute; reflexivity).
  apply pl_torn. apply torn_write. repeat constructor.
Qed.

(** The restriction to program operations that got past two full copies is necessary: when only the
    first copy was programmed, the device starts with a state that was never stored. *)
Theorem C06_torn_first_copy_refuted :
  exists base K m s m1,
    2 <= K /\ history base (8 * K) (m, s) /\
    fst (fst (store base (8 * K) false false m s)) = [FWrite (base + 8) (entry_bytes (store_word (nv_state s)))] /\
    m1 = nor_write m (base + 8) (firstn 2 (entry_bytes (store_word (nv_state s)))) /\
    ~ same_state (nv_state (snd (start base (8 * K) m1))) (nv_state (snd (start base (8 * K) m))) /\
    ~ same_state (nv_state (snd (start base (8 * K) m1))) (nv_state s).
Proof.
  exists 0, 2, (fst stored_one), (snd stored_one),
    (nor_write (fst stored_one) (0 + 8) (firstn 2 (entry_bytes (store_word (nv_state (snd stored_one)))))).
  split; [lia|]. split.
  { change (fst stored_one, snd stored_one) with stored_one.
    replace stored_one with (fst stored_one, snd stored_one) by reflexivity.
    pose proof (h_first 0 (8 * 2) blank_flash (fun x _ => eq_refl)) as H.
    pose proof (h_next _ _ _ _ H (ev_set 0 (8 * 2) (fst (start 0 (8 * 2) blank_flash))
      (snd (start 0 (8 * 2) blank_flash)) 1 eq_refl)) as H1.
    destruct (store 0 (8 * 2) false false (fst (start 0 (8 * 2) blank_flash))
      (set_state (snd (start 0 (8 * 2) blank_flash)) 1)) as [[ops st] s'] eqn:E.
    pose proof (h_next _ _ _ _ H1 (ev_store 0 (8 * 2) _ _ _ _ _ _ E)) as H2.
    pose proof (h_next _ _ _ _ H2 (ev_set 0 (8 * 2) _ _ 2 eq_refl)) as H3.
    unfold stored_one, run. cbn [fold_left run_op].
    change (start 0 (8 * 2) blank_flash) with
      (fst (start 0 (8 * 2) blank_flash), snd (start 0 (8 * 2) blank_flash)).
    cbn [run_op]. rewrite E. exact H3. }
  split; [vm_compute; reflexivity|]. split; [reflexivity|]. split.
  - intro H. specialize (H 1 ltac:(lia) ltac:(lia)). vm_compute in H. discriminate.
  - intro H. specialize (H 0 ltac:(lia) ltac:(lia)). vm_compute in H. discriminate.
Qed.
Print Assumptions C06_torn_first_copy_refuted.

(** An erase failure is deliberately not reported by the store.  When the current entry carries a
    damaged marker (here: one whose third copy was never programmed) that loses the new state: the
    store reports success, and a restart reports the old state. *)
Theorem C05_unreported_erase_failure_refuted :
  exists base K m s, 2 <= K /\
    (let '(ops, st, s') := store base (8 * K) false true m s in
     st = StOk /\ nv_state s = 2 /\ nv_state (snd (start base (8 * K) (flash_run m ops))) = 0x81) /\
    (exists m1, power_loss (fst (start base (8 * K) blank_flash))
       (fst (fst (store base (8 * K) false false (fst (start base (8 * K) blank_flash))
          (set_state (snd (start base (8 * K) blank_flash)) 1)))) m1 /\
     (m, s) = fst (fold_left (run_op base (8 * K)) [OSet 2; OStore false] (start base (8 * K) m1, 1))).
Proof.
  set (m0 := fst (start 0 (8 * 2) blank_flash)).
  set (m1 := nor_write m0 0 (firstn 4 (entry_bytes 0x81))).
  set (d := fst (fold_left (run_op 0 (8 * 2)) [OSet 2; OStore false] (start 0 (8 * 2) m1, 1))).
  exists 0, 2, (fst d), (snd d). split; [lia|]. split; [vm_compute; auto|].
  exists m1. split.
  - replace (fst (fst (store 0 (8 * 2) false false (fst (start 0 (8 * 2) blank_flash))
          (set_state (snd (start 0 (8 * 2) blank_flash)) 1)))) with
      [FWrite 0 (entry_bytes 0x81); FErase 16 16] by (vm_compute; reflexivity).
    apply pl_torn. apply torn_write. repeat constructor.
  - symmetry. apply surjective_pairing.
Qed.
Print Assumptions C05_unreported_erase_failure_refuted.
