(** Model of core/memory_mgmt/heap_with_defrag.c, at the level of its pointers.

    The control blocks in memory (heap_with_defrag.h:25-30) are four maps from the address of a control
    block to its fields; user bytes are a separate map, and what is needed for that (writes to control
    blocks never touch the contents of live blocks) is proved.  Addresses and sizes are [N]; [W] is the
    number of values of a size_t (additions and multiplications of sizes wrap at [W]) and [HL] is
    HEAP_WITH_DEFRAG_CTRL_BLOCK_HEADER_LEN, so that both 32-bit and 64-bit targets are covered.  NULL is
    0.  Loops over the lists take a fuel argument; running out of it is a separate outcome. *)
From Coq Require Import List NArith Bool Arith.
From Verif Require Import Base.
Import ListNotations.
Local Open Scope N_scope.

(** heap_with_defrag.c:10 *)
Definition MAGIC : N := 0xAA920221.

Record mem := Mem { mg : N -> N; sz : N -> N; nx : N -> N; pv : N -> N }.
Definition put (f : N -> N) (a v : N) : N -> N := fun x => if x =? a then v else f x.
Definition set_mg (m : mem) a v := Mem (put (mg m) a v) (sz m) (nx m) (pv m).
Definition set_sz (m : mem) a v := Mem (mg m) (put (sz m) a v) (nx m) (pv m).
Definition set_nx (m : mem) a v := Mem (mg m) (sz m) (put (nx m) a v) (pv m).
Definition set_pv (m : mem) a v := Mem (mg m) (sz m) (nx m) (put (pv m) a v).

(** The control blocks, the user bytes, free_list and allocated_list (heap_with_defrag.c:40-46). *)
Record heap := Heap { hm : mem; bytes : N -> N; fl : N; al : N }.

Section Heap.
  Variable W HL : N.
  Variable fuel : nat.

  (** heap_with_defrag.c:57-71 *)
  Definition heap_init (h : heap) (addr len : N) : option heap :=
    if (addr =? 0) || (len <=? HL) then None
    else
      let m := set_pv (set_nx (set_sz (set_mg (hm h) addr MAGIC) addr (len - HL)) addr 0) addr 0 in
      Some (Heap m (bytes h) addr 0).

  (** heap_with_defrag.c:35: rounding up to a multiple of four, in size_t arithmetic *)
  Definition round4 (size : N) : N := ((size + 3) mod W) / 4 * 4.

  Inductive found := Exact (r : N) | Trim (r : N) | NotFound | NoFuel.

  (** heap_with_defrag.c:89-124, the search for the first block that fits. *)
  Fixpoint find (n : nat) (m : mem) (runner size alloc_size : N) : found :=
    match n with
    | O => NoFuel
    | S n' =>
      if runner =? 0 then NotFound
      else if sz m runner =? size then Exact runner
      else if alloc_size <=? sz m runner then Trim runner
      else find n' m (nx m runner) size alloc_size
    end.

  (** heap_with_defrag.c:92-105, unlinking a block from the list with head [hd]; also 245-258. *)
  Definition unlink (m : mem) (hd r : N) : mem * N :=
    if pv m r =? 0 then
      (if nx m r =? 0 then m else set_pv m (nx m r) 0, nx m r)
    else
      let m1 := set_nx m (pv m r) (nx m r) in
      (if nx m1 r =? 0 then m1 else set_pv m1 (nx m1 r) (pv m1 r), hd).

  (** heap_with_defrag.c:126-140, a control block at the head of the allocated list. *)
  Definition push_allocated (m : mem) (head r size : N) : mem :=
    let m1 := set_pv (set_nx (set_sz (set_mg m r MAGIC) r size) r head) r 0 in
    if head =? 0 then m1 else set_pv m1 head r.

  (** heap_with_defrag.c:80-144; None is out of fuel, otherwise the heap and the address (0 is NULL). *)
  Definition allocate (h : heap) (request : N) : option (heap * N) :=
    let size := round4 request in
    let alloc_size := (size + HL) mod W in
    match find fuel (hm h) (fl h) size alloc_size with
    | NoFuel => None
    | NotFound => Some (h, 0)
    | Exact r =>
      let '(m1, fl1) := unlink (hm h) (fl h) r in
      Some (Heap (push_allocated m1 (al h) r size) (bytes h) fl1 r, r + HL)
    | Trim r =>
      let m1 := set_sz (hm h) r (sz (hm h) r - alloc_size) in
      let r' := r + HL + sz m1 r in
      Some (Heap (push_allocated m1 (al h) r' size) (bytes h) (fl h) r', r' + HL)
    end.

  (** memset and memcpy of user bytes *)
  Definition fill (b : N -> N) (a len v : N) : N -> N := fun x => if (a <=? x) && (x <? a + len) then v else b x.
  Definition copy (b : N -> N) (dst src len : N) : N -> N :=
    fun x => if (dst <=? x) && (x <? dst + len) then b (src + (x - dst)) else b x.

  (** heap_with_defrag.c:154-164 *)
  Definition allocate_zeroize (h : heap) (num size : N) : option (heap * N) :=
    let total := (num * size) mod W in
    match allocate h total with
    | None => None
    | Some (h', a) =>
      if a =? 0 then Some (h', 0) else Some (Heap (hm h') (fill (bytes h') a total 0) (fl h') (al h'), a)
    end.

  (** heap_with_defrag.c:272-275 *)
  Fixpoint walk (n : nat) (m : mem) (runner fb : N) : option N :=
    match n with
    | O => None
    | S n' =>
      if negb (nx m runner =? 0) && (nx m runner <? fb) then walk n' m (nx m runner) fb else Some runner
    end.

  (** HEAP_WITH_DEFRAG_BLOCK_END, heap_with_defrag.c:25-26 *)
  Definition block_end (m : mem) (r : N) : N := r + HL + sz m r.

  (** heap_with_defrag.c:293-296 and 317-320 *)
  Definition wipe (m : mem) (r : N) : mem := set_nx (set_pv (set_sz (set_mg m r 0) r 0) r 0) r 0.

  (** heap_with_defrag.c:303-332: joining with the next block and linking, given the block [b], the next
      free block [rn] (0 if none), the block to link after [runner] and the flag in_free_list. *)
  Definition join_next (m : mem) (b rn runner : N) (in_free : bool) : mem :=
    if negb (rn =? 0) && (block_end m b =? rn) then
      let m1 := set_sz m b (sz m b + (sz m rn + HL)) in
      let m2 := set_nx m1 b (nx m1 rn) in
      let m3 := if nx m2 rn =? 0 then m2 else set_pv m2 (nx m2 rn) b in
      let m4 := if in_free then m3 else
                  let m' := set_pv m3 b (pv m3 rn) in set_nx m' (pv m' rn) b in
      wipe m4 rn
    else if in_free then m
    else
      let m1 := set_nx m b (nx m runner) in
      let m2 := set_pv m1 b runner in
      let m3 := set_nx m2 runner b in
      if nx m3 b =? 0 then m3 else set_pv m3 (nx m3 b) b.

  (** heap_with_defrag.c:226-333 *)
  Definition free (h : heap) (addr : N) : option heap :=
    if addr =? 0 then Some h
    else
      let fb := addr - HL in
      let m0 := hm h in
      if negb (mg m0 fb =? MAGIC) then Some h
      else
        let '(m1, al1) := unlink m0 (al h) fb in
        let m2 := set_pv (set_nx m1 fb 0) fb 0 in
        if fl h =? 0 then Some (Heap m2 (bytes h) fb al1)
        else
          match walk fuel m2 (fl h) fb with
          | None => None
          | Some runner =>
            if fb <? runner then
              let m3 := set_pv (set_nx m2 fb runner) runner fb in
              Some (Heap (join_next m3 fb runner runner true) (bytes h) fb al1)
            else
              let rn := nx m2 runner in
              if block_end m2 runner =? fb then
                let m3 := set_sz m2 runner (sz m2 runner + (sz m2 fb + HL)) in
                let m4 := wipe m3 fb in
                Some (Heap (join_next m4 runner rn runner true) (bytes h) (fl h) al1)
              else Some (Heap (join_next m2 fb rn runner false) (bytes h) (fl h) al1)
          end.

  (** heap_with_defrag.c:173-219 *)
  Definition reallocate (h : heap) (addr size : N) : option (heap * N) :=
    let old := if addr =? 0 then 0 else sz (hm h) (addr - HL) in
    if old =? round4 size then Some (h, addr)
    else
      match allocate h size with
      | None => None
      | Some (h1, a) =>
        if a =? 0 then Some (h1, 0)
        else if addr =? 0 then Some (h1, a)
        else
          let h2 := Heap (hm h1) (copy (bytes h1) a addr (N.min size old)) (fl h1) (al h1) in
          match free h2 addr with None => None | Some h3 => Some (h3, a) end
      end.

  (** heap_with_defrag.c:352-368: number of blocks and total size of a list. *)
  Fixpoint tally (n : nat) (m : mem) (runner : N) : option (N * N * N) :=
    match n with
    | O => None
    | S n' =>
      if runner =? 0 then Some (0, 0, 0)
      else
        match tally n' m (nx m runner) with
        | None => None
        | Some (c, s, o) => Some (c + 1, s + sz m runner, o + (sz m runner + HL))
        end
    end.
End Heap.
