(** C26: the cache of pre-generated keys. *)
From Coq Require Import List NArith Bool Arith Lia.
From Verif Require Import Base KeyCache_Model KeyCache_Spec KeyCache_Proofs KeyCache_Init_Proofs KeyCache_Life_Proofs.
Import ListNotations.

(** Whatever the flash held and whatever the device did before, an initialised cache that is not in its error
    state behaves like a first-in first-out queue of keys read from distinct flash blocks, for every later
    sequence of calls and device faults.  It stops working only after a device failure or by adding to a full
    cache.  On a fresh start every requestor has its full share, if the cache starts full or has a spare
    block. *)
Theorem C26_queue : forall g blocks c0 s0 life c s k c' s' st, geometry_ok g -> init_state g blocks = (Some c0, Ok) ->
  after g c0 s0 life = (c, s) -> initialize g c s k = (c', s', st) ->
  st = Ok /\ inited c' = true /\
  (error_state c' = false -> exists L, starts g s k s' L /\
     (life = [] -> length (keys L) = R g * C g \/ (erases_work g k /\ num_keys g < S_ g) -> shares g L) /\
     forall ops, agrees g L ops (run g c' s' ops)).
Proof.
  intros g blocks c0 s0 life c s k c' s' st G HI HA H.
  destruct (init_state_built g blocks c0 HI) as (HB & HE & HZ).
  pose proof (built_after g life c0 s0 c s G HB HA) as (B1 & B2 & B3).
  destruct (initialize_spec g c s k c' s' st G B1 B2 B3 H) as (A1 & A2 & A3 & A4 & A5 & A6 & A7).
  split; [exact A1|]. split; [exact A2|]. intros HErr. destruct (A7 HErr) as (L & H1 & H2 & H3).
  exists L. split; [exact H1|]. split.
  - intros ->. cbn in HA. injection HA as <- <-. apply H3. exact HZ.
  - intros ops. apply run_agrees; assumption.
Qed.
Print Assumptions C26_queue.

(** No key is handed out twice in the whole life of the cache (power cycles, reinitialisations and the periodic
    task included), and every key handed out was in the flash or was added: provided the keys are different
    ones and an erase that fails after a key was read still makes the block unreadable. *)
Theorem C26_at_most_once : forall g c s life, distinct_blocks s -> NoDup (flat_map given life) ->
  (forall id k, s id = Some k -> ~ In k (flat_map given life)) -> Forall failed_erases_lose life ->
  NoDup (handed g c s life) /\
  (forall k, In k (handed g c s life) -> In k (flat_map given life) \/ exists id, s id = Some k).
Proof. intros. apply handed_once; assumption. Qed.
Print Assumptions C26_at_most_once.

(** A requestor that asked for fewer keys than its credits since the cache started full is never turned away
    for lack of credit or because the cache is empty, whatever the other requestors do. *)
Theorem C26_no_starvation : forall g blocks c0 s k c' s' ops r b f e, geometry_ok g ->
  init_state g blocks = (Some c0, Ok) -> initialize g c0 s k = (c', s', Ok) -> error_state c' = false ->
  snd (is_full g c') = true -> (r < N.of_nat (R g))%N -> count (asks r) ops < C g ->
  exists v, nth_error (run g c' s' (ops ++ [CRemove r b f e])) (length ops) = Some v /\
    fst (result v) <> NoCredit /\ fst (result v) <> QueueEmpty.
Proof.
  intros g blocks c0 s k c' s' ops r b f e G HI H HErr HF Hr Ho.
  destruct (init_state_built g blocks c0 HI) as ((B1 & B2 & B3) & HE & HZ).
  destruct (initialize_spec g c0 s k c' s' Ok G B1 B2 B3 H) as (_ & A2 & _ & _ & _ & _ & A7).
  destruct (A7 HErr) as (L & H1 & H2 & H3).
  rewrite (is_full_spec g c' s' L G H2) in HF. cbn in HF.
  pose proof (st_total _ _ _ _ _ H1) as HT.
  assert (HD : debts L = []) by (destruct (debts L); [reflexivity|discriminate]). rewrite HD in HT. cbn in HT.
  apply (agrees_served g ops L _ r b f e); auto.
  - apply run_agrees; assumption.
  - unfold fair. rewrite HD. cbn. split; [|split; [lia|constructor]]. apply H3; [exact HZ|]. left. lia.
  - unfold owed. rewrite HD. cbn. exact Ho.
Qed.
Print Assumptions C26_no_starvation.

(** No requestor gets more keys than its credits plus the number of keys added meanwhile. *)
Theorem C26_limit : forall g blocks c0 s0 life c s k c' s' ops r, geometry_ok g -> init_state g blocks = (Some c0, Ok) ->
  after g c0 s0 life = (c, s) -> initialize g c s k = (c', s', Ok) -> error_state c' = false ->
  (r < N.of_nat (R g))%N ->
  count (gets r) (combine ops (run g c' s' ops)) <= C g + count adds (combine ops (run g c' s' ops)).
Proof.
  intros g blocks c0 s0 life c s k c' s' ops r G HI HA H HErr Hr.
  destruct (C26_queue g blocks c0 s0 life c s k c' s' Ok G HI HA H) as (_ & _ & HL).
  destruct (HL HErr) as (L & H1 & _ & H3). pose proof (st_credit _ _ _ _ _ H1 r Hr).
  pose proof (agrees_limit g ops L _ r (H3 ops) Hr H0). lia.
Qed.
Print Assumptions C26_limit.

(** Two requestors with one credit each and four blocks: two keys in the flash are handed out in order, a third
    one is added and handed out, and each requestor is held to its credit. *)
Definition ex_g : geometry := Geo 2 1 4.
Definition ex_c0 : cache := Cache 0 0 0 false false (repeat zero_info 4) (repeat 0 2).
Definition ex_store : store := fun id => if N.eqb id 1 then Some [11%N] else if N.eqb id 2 then Some [22%N] else None.
Definition good : N -> look := fun _ => Look false EDone.
Definition fine : nat -> write_outcome := fun _ => WDone.
Definition broken : nat -> write_outcome := fun _ => WFail Lost.
Definition ex_ops : list kcall :=
  [CRemove 0 10 false EDone; CRemove 0 10 false EDone; CAdd [33%N] fine; CAdd [44%N] broken; CRemove 1 10 false EDone;
   CRemove 0 10 false EDone; CRemove 1 10 false EDone].

Example C26_queue_ex : geometry_ok ex_g /\ init_state ex_g 4 = (Some ex_c0, Ok) /\
  let '(c, s, _) := initialize ex_g ex_c0 ex_store good in
  error_state c = false /\ snd (is_full ex_g c) = true /\
  map result (run ex_g c s ex_ops) =
    [(Ok, [11%N]); (NoCredit, []); (Ok, []); (MemoryCorrupted, []); (NotInitialised, []); (NotInitialised, []);
     (NotInitialised, [])] /\
  map result (run ex_g c s [CRemove 0 10 false EDone; CAdd [33%N] fine; CRemove 1 10 false EDone; CRemove 0 10 false EDone]) =
    [(Ok, [11%N]); (Ok, []); (Ok, [22%N]); (Ok, [33%N])].
Proof.
  split; [constructor; cbn; lia|]. vm_compute. repeat split.
Qed.

Example C26_at_most_once_ex :
  let life := [EvPowerUp 4; EvTask good None fine; EvCall (CRemove 0 10 false (EFail true)); EvTask good None fine;
     EvTask good (Some [33%N]) fine;
     EvCall (CRemove 1 10 false EDone); EvPowerUp 4; EvInit good; EvCall (CRemove 0 10 false EDone)] in
  NoDup (flat_map given life) /\ Forall failed_erases_lose life /\
  handed ex_g ex_c0 ex_store life = [[11%N]; [22%N]; [33%N]].
Proof.
  split; [repeat constructor; cbn; tauto|]. split; [repeat constructor|]. vm_compute. reflexivity.
Qed.

(** Adding to a full cache is not always answered as such: after a key was removed and replaced, it is reported
    as memory corruption and shuts the cache down although the device works. *)
Theorem C26_add_when_full_refuted : exists g c0 s k c s1, geometry_ok g /\ init_state g (S_ g) = (Some c0, Ok) /\
  initialize g c0 s k = (c, s1, Ok) /\ error_state c = false /\
  map (fun v => (fst (result v), up v, full v)) (run g c s1
    [CAdd [9%N] fine; CRemove 0 10 false EDone; CAdd [33%N] fine; CAdd [44%N] fine; CRemove 1 10 false EDone]) =
    [(QueueFull, true, true); (Ok, true, false); (Ok, true, true); (MemoryCorrupted, false, true);
     (NotInitialised, false, true)].
Proof.
  exists ex_g, ex_c0, ex_store, good.
  destruct (initialize ex_g ex_c0 ex_store good) as [[c s1] st] eqn:E. exists c, s1.
  split; [constructor; cbn; lia|]. vm_compute in E. injection E as <- <- <-. vm_compute. repeat split.
Qed.
Print Assumptions C26_add_when_full_refuted.

(** A key stored in the last block is not found: the cache starts empty although a readable key is there. *)
Theorem C26_all_keys_found_refuted : exists g c0 s k c s1, geometry_ok g /\ init_state g (S_ g) = (Some c0, Ok) /\
  erases_work g k /\ length (filter (readable s k) (block_ids g)) = 1 /\
  initialize g c0 s k = (c, s1, Ok) /\ error_state c = false /\
  map result (run g c s1 [CRemove 0 10 false EDone; CRemove 1 10 false EDone]) = [(QueueEmpty, []); (QueueEmpty, [])].
Proof.
  exists (Geo 2 1 3), (Cache 0 0 0 false false (repeat zero_info 3) (repeat 0 2)),
    (fun id => if N.eqb id 2 then Some [7%N] else None), good.
  destruct (initialize (Geo 2 1 3) (Cache 0 0 0 false false (repeat zero_info 3) (repeat 0 2))
    (fun id => if N.eqb id 2 then Some [7%N] else None) good) as [[c s1] st] eqn:E. exists c, s1.
  split; [constructor; cbn; lia|]. split; [reflexivity|]. split; [intros id _; reflexivity|].
  vm_compute in E. injection E as <- <- <-. vm_compute. repeat split.
Qed.
Print Assumptions C26_all_keys_found_refuted.

(** If the erase of a removed key fails and leaves the key readable, with no spare block left the periodic task
    initialises the cache again and the same key is handed out to another requestor. *)
Theorem C26_failed_erase_refuted : exists g c0 s life, geometry_ok g /\ init_state g (S_ g) = (Some c0, Ok) /\
  distinct_blocks s /\ NoDup (flat_map given life) /\ (forall id k, s id = Some k -> ~ In k (flat_map given life)) /\
  ~ NoDup (handed g c0 s life).
Proof.
  exists (Geo 2 1 3), (Cache 0 0 0 false false (repeat zero_info 3) (repeat 0 2)),
    (fun id => if N.eqb id 0 then Some [7%N] else None),
    [EvTask good None fine; EvCall (CRemove 0 10 false (EFail false)); EvTask good None fine; EvCall (CRemove 0 10 false EDone)].
  split; [constructor; cbn; lia|]. split; [reflexivity|]. split.
  { intros i j k. destruct (N.eqb_spec i 0), (N.eqb_spec j 0); congruence. }
  split; [constructor|]. split; [intros; cbn; auto|].
  intros H. vm_compute in H. inversion H as [|x l Hin Hl]. apply Hin. left. reflexivity.
Qed.
Print Assumptions C26_failed_erase_refuted.

(** The error state for too few usable blocks is missed when the only bad block is the last one. *)
Theorem C26_too_few_blocks_refuted : exists g c0 s k c s1, geometry_ok g /\ S_ g = num_keys g /\
  init_state g (S_ g) = (Some c0, Ok) /\ snd (validate_block s (N.of_nat (S_ g) - 1) (k (N.of_nat (S_ g) - 1)%N)) = Corrupted /\
  initialize g c0 s k = (c, s1, Ok) /\ error_state c = false.
Proof.
  exists (Geo 2 1 3), (Cache 0 0 0 false false (repeat zero_info 3) (repeat 0 2)), (fun _ => None),
    (fun id => Look false (if N.eqb id 2 then EFail false else EDone)).
  destruct (initialize (Geo 2 1 3) (Cache 0 0 0 false false (repeat zero_info 3) (repeat 0 2)) (fun _ => None)
    (fun id => Look false (if N.eqb id 2 then EFail false else EDone))) as [[c s1] st] eqn:E. exists c, s1.
  split; [constructor; cbn; lia|]. vm_compute in E. injection E as <- <- <-. vm_compute. repeat split.
Qed.
Print Assumptions C26_too_few_blocks_refuted.
