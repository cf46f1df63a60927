(** What a user of the key cache relies on: a queue of keys with a ledger of who took one. *)
From Coq Require Import List NArith Bool Arith.
From Verif Require Import Base KeyCache_Model.
Import ListNotations.

(** One call on an initialised cache, with everything the device does during it. *)
Inductive kcall :=
| CAdd (key : list N) (outcomes : nat -> write_outcome)
| CRemove (requestor : N) (buf : nat) (fault : bool) (e : erase_outcome).

Definition do_call (g : geometry) (c : cache) (s : store) (o : kcall) : cache * store * (status * list N) :=
  match o with
  | CAdd key w => let '(c', s', r) := add g c s key w in (c', s', (r, []))
  | CRemove r buf f e => remove g c s r buf f e
  end.

(** What the caller sees of a call: its result, and whether afterwards the cache is still initialised, full
    and empty. *)
Record view := View { result : status * list N; up : bool; full : bool; empty : bool }.

Fixpoint run (g : geometry) (c : cache) (s : store) (ops : list kcall) : list view :=
  match ops with
  | [] => []
  | o :: t =>
    let '(c', s', r) := do_call g c s o in
    View r (inited c') (snd (is_full g c')) (is_empty c') :: run g c' s' t
  end.

(** Whether one of the attempts to write succeeds. *)
Definition written (w : nat -> write_outcome) : bool :=
  existsb (fun o => match o with WDone => true | _ => false end) [w 0; w 1; w 2].

(** Whether the device fails for good during a call: three failed writes, or a failed erase. *)
Definition device_failed (o : kcall) : bool :=
  match o with
  | CAdd _ w => negb (written w)
  | CRemove _ _ _ (EFail _) => true
  | CRemove _ _ _ EDone => false
  end.

(** The keys waiting to be handed out, oldest first; the requestors that took a key that has not been replaced
    yet, oldest first; and how many more keys each requestor may take. *)
Record ledger := Ledger { keys : list (list N); debts : list N; credit : N -> nat }.

Definition add_to (f : N -> nat) (r : N) (v : nat) : N -> nat := fun x => if N.eqb x r then v else f x.

Definition ledger_step (g : geometry) (L : ledger) (o : kcall) : (status * list N) * ledger :=
  match o with
  | CAdd [] _ => ((InvalidArgument, []), L)
  | CAdd key w =>
    match debts L with
    | [] => ((QueueFull, []), L)
    | d :: t =>
      if written w then
        ((Ok, []), Ledger (keys L ++ [key]) t (add_to (credit L) d (Nat.min (C g) (credit L d + 1))))
      else ((StoreError, []), L)
    end
  | CRemove r buf fault _ =>
    if N.leb (N.of_nat (R g)) r then ((BadRequestor, []), L)
    else
      match keys L with
      | [] => ((QueueEmpty, []), L)
      | k :: t =>
        if credit L r =? 0 then ((NoCredit, []), L)
        else
          (if fault || (buf <? length k) then (StoreError, []) else (Ok, k),
           Ledger t (debts L ++ [r]) (add_to (credit L) r (credit L r - 1)))
      end
  end.

(** Adding to a full cache. *)
Definition add_when_full (L : ledger) (o : kcall) : Prop :=
  match o with CAdd (_ :: _) _ => debts L = [] | _ => False end.

(** What a caller may see of a cache that starts with ledger [L]: every result is the one of the ledger.  The
    cache may only stop working after a call during which the device failed, or by adding to a full cache
    (which may be answered as memory corruption, see C26_add_when_full_refuted); then it refuses everything. *)
Definition refuses (o : kcall) : status * list N :=
  match o with CAdd [] _ => (InvalidArgument, []) | _ => (NotInitialised, []) end.

Definition none {A} (l : list A) : bool := match l with [] => true | _ => false end.

Fixpoint agrees (g : geometry) (L : ledger) (ops : list kcall) (seen : list view) : Prop :=
  match ops, seen with
  | [], [] => True
  | o :: ops', v :: seen' =>
    let '(r, L') := ledger_step g L o in
    if up v then
      result v = r /\ full v = (length (keys L') =? R g * C g) /\ empty v = none (keys L') /\ agrees g L' ops' seen'
    else
      ((result v = r /\ device_failed o = true) \/ (result v = (MemoryCorrupted, []) /\ add_when_full L o)) /\
      Forall2 (fun o v => result v = refuses o /\ up v = false) ops' seen'
  | _, _ => False
  end.

(** Geometries the cache can be built with: the block number fits the 10 bit field and the requestor the
    16 bit one. *)
Record geometry_ok (g : geometry) : Prop := {
  g_r : 1 <= R g; g_c : 1 <= C g;
  g_r16 : (N.of_nat (R g) <= 65535)%N;
  g_s10 : (N.of_nat (S_ g) <= 1024)%N;
  g_s : num_keys g <= S_ g
}.

(** A block that holds a key the device can read while the cache is initialised. *)
Definition readable (s : store) (k : N -> look) (id : N) : bool :=
  match s id with Some _ => negb (look_fault (k id)) | None => false end.

Definition block_ids (g : geometry) : list N := map N.of_nat (seq 0 (S_ g)).

(** No erase fails while the cache is initialised. *)
Definition erases_work (g : geometry) (k : N -> look) : Prop :=
  forall id, In id (block_ids g) -> look_erase (k id) = EDone.

Definition owed (L : ledger) (r : N) : nat := count_occ N.eq_dec (debts L) r.

(** Every requestor has its full share: what it may still take and what it took and was not replaced yet
    add up to its credits. *)
Definition shares (g : geometry) (L : ledger) : Prop :=
  forall r, (r < N.of_nat (R g))%N -> credit L r + owed L r = C g.

(** What an initialised cache starts with: keys that were in distinct blocks of the flash (with [s] before and
    [s'] after the initialisation); at most as many as it may hold; and, if no erase failed, all of them but
    one unless it is full. *)
Record starts (g : geometry) (s : store) (k : N -> look) (s' : store) (L : ledger) : Prop := {
  st_keys : exists ids, NoDup ids /\ Forall2 (fun id key => In id (block_ids g) /\ readable s k id = true /\
     s id = Some key /\ s' id = Some key) ids (keys L);
  st_total : length (keys L) + length (debts L) = R g * C g;
  st_debts : Forall (fun d => (d < N.of_nat (R g))%N) (debts L);
  st_credit : forall r, (r < N.of_nat (R g))%N -> credit L r <= C g;
  st_most : erases_work g k ->
    length (keys L) = R g * C g \/ length (filter (readable s k) (block_ids g)) <= S (length (keys L))
}.

(** The whole life of the cache: power cycles, (re)initialisations, calls and the periodic task. *)
Inductive event :=
| EvPowerUp (blocks : nat)
| EvInit (k : N -> look)
| EvCall (o : kcall)
| EvTask (k : N -> look) (generated : option (list N)) (outcomes : nat -> write_outcome).

Definition ev_step (g : geometry) (c : cache) (s : store) (e : event) : cache * store * list (list N) :=
  match e with
  | EvPowerUp b => match fst (init_state g b) with Some c' => (c', s, []) | None => (c, s, []) end
  | EvInit k => let '(c', s', _) := initialize g c s k in (c', s', [])
  | EvCall o =>
    let '(c', s', (r, key)) := do_call g c s o in
    (c', s', match o, r with CRemove _ _ _ _, Ok => [key] | _, _ => [] end)
  | EvTask k gen w => let '(c', s') := execute g c s k gen w in (c', s', [])
  end.

(** All keys handed out, oldest first. *)
Fixpoint handed (g : geometry) (c : cache) (s : store) (l : list event) : list (list N) :=
  match l with
  | [] => []
  | e :: t => let '(c', s', out) := ev_step g c s e in out ++ handed g c' s' t
  end.

(** The cache after a life. *)
Fixpoint after (g : geometry) (c : cache) (s : store) (l : list event) : cache * store :=
  match l with
  | [] => (c, s)
  | e :: t => let '(c', s', _) := ev_step g c s e in after g c' s' t
  end.

(** How often a requestor asks for a key, how often it gets one, and how often a key is added. *)
Definition asks (r : N) (o : kcall) : bool := match o with CRemove q _ _ _ => N.eqb q r | _ => false end.
Definition gets (r : N) (x : kcall * view) : bool :=
  match x with (o, v) => asks r o && match fst (result v) with Ok => true | _ => false end end.
Definition adds (x : kcall * view) : bool :=
  match x with (CAdd _ _, v) => match fst (result v) with Ok => true | _ => false end | _ => false end.
Definition count {A} (p : A -> bool) (l : list A) : nat := length (filter p l).

(** The keys given to the cache during a life. *)
Definition given (e : event) : list (list N) :=
  match e with
  | EvCall (CAdd k _) => [k]
  | EvTask _ (Some k) _ => [k]
  | _ => []
  end.

(** Every erase that fails still makes the block unreadable. *)
Definition erase_loses (e : erase_outcome) : Prop := match e with EDone => True | EFail lost => lost = true end.
Definition failed_erases_lose (e : event) : Prop :=
  match e with
  | EvInit _ | EvPowerUp _ | EvTask _ _ _ | EvCall (CAdd _ _) => True
  | EvCall (CRemove _ _ _ e) => erase_loses e
  end.

(** The keys in the blocks at the start are different ones. *)
Definition distinct_blocks (s : store) : Prop := forall i j k, s i = Some k -> s j = Some k -> i = j.
