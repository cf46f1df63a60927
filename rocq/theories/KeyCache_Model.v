(** Model of core/keystore/key_cache_flash.c and of the part of core/keystore/ephemeral_key_manager.c that
    drives it.

    Simplifications: the flash store behind the cache is one cell per block (C07 says what the real stores
    guarantee); what the store reports and what really happens to the cell on a failure are chosen by the
    environment, call by call.  Pointers are never null.  Debug log entries are dropped.  add and remove hold
    a lock for their whole body, so they are atomic here.  [R] requestors, [C] credits for each and [S] flash
    blocks are the construction parameters. *)
From Coq Require Import List NArith Bool Arith.
From Verif Require Import Base.
Import ListNotations.

(** key_cache_flash.h:25-34, enum key_cache_flash_key_status *)
Inductive validity := Invalid | Valid | Corrupted.

(** key_cache_flash.h:36-57, struct key_cache_flash_key_info.  [phys] is a 10 bit field, [req] a 16 bit one. *)
Record info := Info { valid : validity; phys : N; req : N }.

Definition UNASSIGNED : N := 65535.   (* key_cache_flash.h:17 *)
Definition MAX_RETRY : nat := 3.      (* key_cache_flash.h:22 *)

(** key_cache_flash.h:60-106, the state, the block information and the credits *)
Record cache := Cache {
  add_i : nat; rem_i : nat; free_i : nat;
  inited : bool; error_state : bool;
  infos : list info;
  credits : list nat
}.

Inductive status :=
| Ok | NotInitialised | NoStorage | MemoryCorrupted | QueueFull | QueueEmpty | BadRequestor | BadRemoveIndex
| NoKeyAtIndex | NoCredit | InvalidArgument | InsufficientStorage | StorageMismatch | StoreError.

(** The blocks of the store: nothing readable, or a key. *)
Definition store := N -> option (list N).
Definition put_cell (s : store) (id : N) (v : option (list N)) : store :=
  fun x => if N.eqb x id then v else s x.

(** What happens to a block when the store reports a failed write: it keeps what it had, it is lost, or the new
    data is there all the same.  A failed erase keeps or loses the data. *)
Inductive after_write := Kept | Lost | Landed.
Inductive write_outcome := WDone | WFail (a : after_write).
Inductive erase_outcome := EDone | EFail (lost : bool).

Definition store_write (s : store) (id : N) (key : list N) (o : write_outcome) : store * bool :=
  match o with
  | WDone => (put_cell s id (Some key), true)
  | WFail Kept => (s, false)
  | WFail Lost => (put_cell s id None, false)
  | WFail Landed => (put_cell s id (Some key), false)
  end.

Definition store_erase (s : store) (id : N) (o : erase_outcome) : store * bool :=
  match o with
  | EDone => (put_cell s id None, true)
  | EFail true => (put_cell s id None, false)
  | EFail false => (s, false)
  end.

(** A read into a buffer of [buf] bytes; [fault] is an error reported by the device. *)
Definition store_read (s : store) (id : N) (buf : nat) (fault : bool) : option (list N) :=
  match s id with
  | Some k => if fault then None else if Nat.leb (length k) buf then Some k else None
  | None => None
  end.

(** Construction parameters: requestors, credits for each, flash blocks. *)
Record geometry := Geo { R : nat; C : nat; S_ : nat }.

(** key_cache_flash.c:646-648 *)
Definition num_keys (g : geometry) : nat := R g * C g + 1.

Definition zero_info : info := Info Invalid 0 0.
Definition slot (c : cache) (i : nat) : info := nth i (infos c) zero_info.

Definition set_infos (c : cache) (l : list info) : cache :=
  Cache (add_i c) (rem_i c) (free_i c) (inited c) (error_state c) l (credits c).
Definition set_slot (c : cache) (i : nat) (x : info) : cache := set_infos c (upd (infos c) i x).
Definition set_credits (c : cache) (l : list nat) : cache :=
  Cache (add_i c) (rem_i c) (free_i c) (inited c) (error_state c) (infos c) l.
Definition set_inited (c : cache) (b : bool) : cache :=
  Cache (add_i c) (rem_i c) (free_i c) b (error_state c) (infos c) (credits c).
Definition set_add (c : cache) (i : nat) : cache :=
  Cache i (rem_i c) (free_i c) (inited c) (error_state c) (infos c) (credits c).
Definition set_rem (c : cache) (i : nat) : cache :=
  Cache (add_i c) i (free_i c) (inited c) (error_state c) (infos c) (credits c).
Definition set_free (c : cache) (i : nat) : cache :=
  Cache (add_i c) (rem_i c) i (inited c) (error_state c) (infos c) (credits c).
Definition set_error (c : cache) (b : bool) : cache :=
  Cache (add_i c) (rem_i c) (free_i c) (inited c) b (infos c) (credits c).

(** key_cache_flash.c:22-40, key_cache_flash_increment_queue_index *)
Definition increment (c : cache) (index len : nat) : cache * nat :=
  if index <? len then (c, (index + 1) mod len) else (set_inited c false, 0).

(** key_cache_flash.c:51-72, key_cache_flash_decrement_queue_index *)
Definition decrement (c : cache) (index len : nat) : cache * nat :=
  if index =? 0 then (c, len - 1)
  else if index <? len then (c, index - 1)
  else (set_inited c false, 0).

(** key_cache_flash.c:82-97, key_cache_flash_try_erase *)
Definition try_erase (s : store) (id : N) (o : erase_outcome) : store * validity :=
  let '(s', ok) := store_erase s id o in (s', if ok then Invalid else Corrupted).

(** What happens to one block while the cache is initialised: whether looking at it fails (reading the length,
    the allocation or the read), and the outcome of the erase if there is one. *)
Record look := Look { look_fault : bool; look_erase : erase_outcome }.

(** key_cache_flash.c:109-152, key_cache_flash_read_key_and_validate_flash_sector *)
Definition validate_block (s : store) (id : N) (k : look) : store * validity :=
  match s id with
  | Some _ => if look_fault k then try_erase s id (look_erase k) else (s, Valid)
  | None => try_erase s id (look_erase k)
  end.

(** key_cache_flash.c:160-189, key_cache_flash_update_key_info_in_flash_error *)
Definition replace_block (g : geometry) (c : cache) (logical : nat) : cache :=
  let n := free_i c in
  if n <=? num_keys g then set_inited c false
  else
    let bad := phys (slot c logical) in
    let good := phys (slot c n) in
    let c1 := set_slot c logical (Info (valid (slot c logical)) good (req (slot c logical))) in
    let c2 := set_slot c1 n (Info (valid (slot c1 n)) bad (req (slot c1 n))) in
    set_free c2 (n - 1).

(** key_cache_flash.c:197-221, key_cache_flash_update_add_index *)
Definition release_slot (g : geometry) (c : cache) (requestor : N) : cache :=
  let r := rem_i c in
  let c1 :=
    if 0 <? nth (N.to_nat requestor) (credits c) 0
    then set_credits c (upd (credits c) (N.to_nat requestor) (nth (N.to_nat requestor) (credits c) 0 - 1))
    else c in
  let '(c2, p) := decrement c1 r (num_keys g) in
  let c3 := set_slot c2 p (Info (valid (slot c2 p)) (phys (slot c2 p)) requestor) in
  let c4 := set_slot c3 r (Info Invalid (phys (slot c3 r)) UNASSIGNED) in
  let '(c5, n) := increment c4 r (num_keys g) in
  set_rem c5 n.

Definition same_validity (a b : validity) : bool :=
  match a, b with Invalid, Invalid | Valid, Valid | Corrupted, Corrupted => true | _, _ => false end.

Definition swap (l : list info) (i j : nat) : list info :=
  upd (upd l i (nth j l zero_info)) j (nth i l zero_info).

(** key_cache_flash.c:245-277, the loop of key_cache_flash_arrange_key_info; [fuel] is at least high - mid. *)
Fixpoint arrange_loop (fuel low mid high : nat) (l : list info) : list info * nat * nat :=
  match fuel with
  | O => (l, low, high)
  | S f =>
    if mid <? high then
      match valid (nth mid l zero_info) with
      | Valid =>
        let l' := if same_validity (valid (nth low l zero_info)) (valid (nth mid l zero_info)) then l
                  else swap l low mid in
        arrange_loop f (S low) (S mid) high l'
      | Invalid => arrange_loop f low (S mid) high l
      | Corrupted =>
        let l' := if same_validity (valid (nth mid l zero_info)) (valid (nth high l zero_info)) then l
                  else swap l mid high in
        arrange_loop f low mid (if 0 <? high then high - 1 else high) l'
      end
    else (l, low, high)
  end.

(** key_cache_flash.c:232-307, key_cache_flash_arrange_key_info *)
Definition arrange (g : geometry) (c : cache) : cache * status :=
  if S_ g =? 0 then (c, InvalidArgument)
  else
    let '(l, low, high) := arrange_loop (S_ g) 0 0 (S_ g - 1) (infos c) in
    let c1 := set_rem (set_infos c l) 0 in
    let c2 := set_add c1 (if num_keys g <=? low then num_keys g - 1 else low) in
    let c3 := if high + 1 <? num_keys g then set_error c2 true else c2 in
    (set_free c3 high, Ok).

(** key_cache_flash.c:339-346, key_cache_flash_is_full (its side effect on a bad index included) *)
Definition is_full (g : geometry) (c : cache) : cache * bool :=
  let '(c1, n) := increment c (add_i c) (num_keys g) in (c1, n =? rem_i c1).

(** key_cache_flash.c:349-359, key_cache_flash_is_empty *)
Definition is_empty (c : cache) : bool := add_i c =? rem_i c.

(** key_cache_flash.c:373-378: look at every block in order *)
Fixpoint validate_all (n i : nat) (c : cache) (s : store) (k : N -> look) : cache * store :=
  match n with
  | O => (c, s)
  | S n' =>
    let '(s', v) := validate_block s (N.of_nat i) (k (N.of_nat i)) in
    validate_all n' (S i) (set_slot c i (Info v (N.of_nat i mod 1024) (req (slot c i)))) s' k
  end.

(** key_cache_flash.c:389-403: hand out the credits *)
Fixpoint assign (n i : nat) (g : geometry) (c : cache) (requestor : N) : cache :=
  match n with
  | O => c
  | S n' =>
    let c1 := set_slot c i (Info (valid (slot c i)) (phys (slot c i)) requestor) in
    let have := nth (N.to_nat requestor) (credits c1) 0 in
    let c2 :=
      match valid (slot c1 i) with
      | Valid =>
        if have <? C g
        then set_slot (set_credits c1 (upd (credits c1) (N.to_nat requestor) (have + 1))) i
               (Info Valid (phys (slot c1 i)) UNASSIGNED)
        else c1
      | _ => c1
      end in
    let '(c3, r) := increment c2 (N.to_nat requestor) (R g) in
    assign n' (S i) g c3 (N.of_nat r mod 65536)
  end.

(** key_cache_flash.c:361-408, key_cache_flash_initialize_cache *)
Definition initialize (g : geometry) (c : cache) (s : store) (k : N -> look) : cache * store * status :=
  let '(c1, s1) := validate_all (S_ g) 0 c s k in
  match arrange g c1 with
  | (c2, Ok) => (set_inited (assign (num_keys g) 0 g c2 0) true, s1, Ok)
  | (c2, e) => (c2, s1, e)
  end.

(** key_cache_flash.c:470-477: up to three attempts *)
Fixpoint write_attempts (n : nat) (s : store) (id : N) (key : list N) (outcomes : nat -> write_outcome)
  : store * bool :=
  match n with
  | O => (s, false)
  | S n' =>
    match store_write s id key (outcomes n') with
    | (s', true) => (s', true)
    | (s', false) => write_attempts n' s' id key outcomes
    end
  end.

(** key_cache_flash.c:410-504, key_cache_flash_add.  [outcomes i] is what happens when [i] more attempts
    remain. *)
Definition add (g : geometry) (c : cache) (s : store) (key : list N) (outcomes : nat -> write_outcome)
  : cache * store * status :=
  if length key =? 0 then (c, s, InvalidArgument)
  else if negb (inited c) then (c, s, NotInitialised)
  else if error_state c then (c, s, NoStorage)
  else if num_keys g <=? add_i c then (set_inited c false, s, MemoryCorrupted)
  else
    let requestor := req (slot c (add_i c)) in
    if N.leb (N.of_nat (R g)) requestor then (set_inited c false, s, MemoryCorrupted)
    else
      let id := phys (slot c (add_i c)) in
      if N.leb (N.of_nat (S_ g)) id then (set_inited c false, s, MemoryCorrupted)
      else
        let '(c0, full) := is_full g c in
        if full then (c0, s, QueueFull)
        else
          let '(s', done) := write_attempts MAX_RETRY s id key outcomes in
          if done then
            let have := nth (N.to_nat requestor) (credits c0) 0 in
            let c1 := if have <? C g
                      then set_credits c0 (upd (credits c0) (N.to_nat requestor) (have + 1)) else c0 in
            let c2 := set_slot c1 (add_i c) (Info Valid (phys (slot c1 (add_i c))) UNASSIGNED) in
            let '(c3, n) := increment c2 (add_i c) (num_keys g) in
            (set_add c3 n, s', Ok)
          else (replace_block g c0 (add_i c), s', StoreError).

(** key_cache_flash.c:506-599, key_cache_flash_remove: [buf] is the size of the caller's buffer, [fault] a read
    error of the device, [e] the outcome of the erase. *)
Definition remove (g : geometry) (c : cache) (s : store) (requestor : N) (buf : nat) (fault : bool)
  (e : erase_outcome) : cache * store * (status * list N) :=
  if negb (inited c) then (c, s, (NotInitialised, []))
  else if error_state c then (c, s, (NoStorage, []))
  else if N.leb (N.of_nat (R g)) requestor then (c, s, (BadRequestor, []))
  else if num_keys g <? rem_i c then (set_inited c false, s, (BadRemoveIndex, []))
  else if is_empty c then (c, s, (QueueEmpty, []))
  else
    match valid (slot c (rem_i c)) with
    | Valid =>
      let id := phys (slot c (rem_i c)) in
      if N.leb (N.of_nat (S_ g)) id then (set_inited c false, s, (MemoryCorrupted, []))
      else if nth (N.to_nat requestor) (credits c) 0 =? 0 then (c, s, (NoCredit, []))
      else
        let out := match store_read s id buf fault with Some k => (Ok, k) | None => (StoreError, []) end in
        let '(s', v) := try_erase s id e in
        let c1 := match v with Invalid => c | _ => replace_block g c (rem_i c) end in
        (release_slot g c1 requestor, s', out)
    | _ => (release_slot g c requestor, s, (NoKeyAtIndex, []))
    end.

(** key_cache_flash.c:646-694, key_cache_flash_init and key_cache_flash_init_state: [blocks] is what the store
    says it has.  The arrays are cleared before the number of blocks is looked at. *)
Definition init_state (g : geometry) (blocks : nat) : option cache * status :=
  if (R g =? 0) || (C g =? 0) then (None, InvalidArgument)
  else if S_ g <? num_keys g then (None, InsufficientStorage)
  else if blocks <? S_ g then (None, StorageMismatch)
  else (Some (Cache 0 0 0 false false (repeat zero_info (S_ g)) (repeat 0 (R g))), Ok).

(** ephemeral_key_manager.c:44-102, ephemeral_key_manager_execute without its scheduling.  [gen] is what the key
    generator returns. *)
Definition execute (g : geometry) (c : cache) (s : store) (k : N -> look) (gen : option (list N))
  (outcomes : nat -> write_outcome) : cache * store :=
  if error_state c then (c, s)
  else if negb (inited c) then let '(c1, s1, _) := initialize g c s k in (c1, s1)
  else
    let '(c1, full) := is_full g c in
    if full then (c1, s)
    else match gen with
         | None => (c1, s)
         | Some key => let '(c2, s2, _) := add g c1 s key outcomes in (c2, s2)
         end.
