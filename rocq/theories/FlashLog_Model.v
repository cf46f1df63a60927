(** Model of core/logging/logging_flash.c: a log of variable size entries in a ring of flash sectors.

    [SS] is the sector size (4096) and [NS] the number of sectors (16).  Addresses are relative to the start of the area,
    which is aligned to its size.  Erasing a sector, erasing the area and writing may fail without effect; a write may
    also stop early ([WPart]).  Reads do not fail.  The lock is not modelled: every function holds it from its first to
    its last access of the state.  Pointers are assumed non-NULL. *)
From Coq Require Import List NArith Bool Arith.
From Verif Require Import Base RamLog_Model.
Import ListNotations.

(** Flash: programming clears bits, erasing sets all of a sector. *)
Definition flash := nat -> N.
Definition rd (m : flash) (a n : nat) : list N := map m (seq a n).
Definition program (m : flash) (a : nat) (d : list N) : flash :=
  fun x => if (a <=? x) && (x <? a + length d) then N.land (m x) (nth (x - a) d 0%N) else m x.
Definition erase (m : flash) (a n : nat) : flash := fun x => if (a <=? x) && (x <? a + n) then 255%N else m x.

(** logging_flash.c:14, LOGGING_FLASH_TERMINATOR *)
Definition TERMINATOR : N := 0x8000%N.
(** logging_flash.c:107-119 with the arguments of line 142: the header that ends a sector early. *)
Definition term : list N := header_bytes (TERMINATOR + N.of_nat header_size) 0.

Inductive wresult := WFull | WFail | WPart (n : nat).
Inductive status := Ok | BadLength | EraseFailed | WriteFailed | Incomplete.

Section FlashLog.
Variable SS NS : nat.

(** logging_flash.h:25-37; [f_buf] is the part of the buffer up to next_write. *)
Record flog := FLog {
  f_buf : list N; f_remain : nat; f_term : bool; f_id : N; f_used : list nat; f_next : nat; f_start : nat
}.

(** logging_flash.c:69-78: where the next write goes after one that ended at [a1]. *)
Definition next_address (a1 remain : nat) (terminated : bool) : nat :=
  let a2 := if negb (a1 mod SS =? 0) && ((remain <? header_size) || terminated) then a1 - a1 mod SS + SS else a1 in
  if NS * SS <=? a2 then 0 else a2.

(** logging_flash.c:24-98, logging_flash_save_buffer.  [ef]: erasing fails. *)
Definition save_buffer (s : flog) (m : flash) (ef : bool) (w : wresult) : flog * flash * status :=
  if length (f_buf s) =? 0 then (s, m, Ok)
  else
    let sec := f_next s / SS in
    let fresh := f_next s mod SS =? 0 in
    if fresh && ef then (s, m, EraseFailed)
    else
      let m1 := if fresh then erase m (f_next s) SS else m in
      let used1 := if fresh then upd (f_used s) sec 0 else f_used s in
      let next := (f_start s + 1) mod NS in
      let start1 := if fresh && (f_start s =? sec) && negb (nth next used1 0 =? 0) then next else f_start s in
      let s1 := FLog (f_buf s) (f_remain s) (f_term s) (f_id s) used1 (f_next s) start1 in
      match w with
      | WFail => (s1, m1, WriteFailed)
      | WPart k =>
        if k <? length (f_buf s) then
          (FLog (skipn k (f_buf s)) (f_remain s) (f_term s) (f_id s) (upd used1 sec (nth sec used1 0 + k)) (f_next s + k) start1,
           program m1 (f_next s) (firstn k (f_buf s)), Incomplete)
        else (s1, m1, WriteFailed)   (* not a result of the device *)
      | WFull =>
        let n := length (f_buf s) in
        let a3 := next_address (f_next s + n) (f_remain s) (f_term s) in
        let u := nth sec used1 0 + n in
        (FLog [] (SS - a3 mod SS) false (f_id s) (upd used1 sec (if f_term s then u - header_size else u)) a3 start1,
         program m1 (f_next s) (f_buf s), Ok)
      end.

(** logging_flash.c:107-119, logging_flash_write_header; [len] includes the header here. *)
Definition write_header (s : flog) (len id : N) : flog :=
  FLog (f_buf s ++ header_bytes len id) (f_remain s - header_size) (f_term s) (f_id s) (f_used s) (f_next s) (f_start s).

(** logging_flash.c:121-162, logging_flash_create_entry *)
Definition create_entry (s : flog) (m : flash) (e : list N) (ef : bool) (w : wresult) : flog * flash * status :=
  if (length e =? 0) || (SS <? length e + header_size) then (s, m, BadLength)
  else
    let full := f_term s || (f_remain s <? header_size + length e) in
    let s1 := if full && negb (f_term s) && (header_size <=? f_remain s)
              then let t := write_header s (TERMINATOR + N.of_nat header_size) 0 in
                   FLog (f_buf t) (f_remain t) true (f_id t) (f_used t) (f_next t) (f_start t)
              else s in
    let '(s2, m2, r) := if full then save_buffer s1 m ef w else (s1, m, Ok) in
    match r with
    | Ok =>
      let s3 := write_header s2 (N.of_nat (header_size + length e)) (f_id s2) in
      (FLog (f_buf s3 ++ e) (f_remain s3 - length e) (f_term s3) ((f_id s3 + 1) mod 2 ^ 32)%N (f_used s3) (f_next s3) (f_start s3), m2, Ok)
    | _ => (s2, m2, r)
    end.

(** logging_flash.c:164-178, logging_flash_flush *)
Definition flush (s : flog) (m : flash) (ef : bool) (w : wresult) : flog * flash * status := save_buffer s m ef w.

(** logging_flash.c:180-208, logging_flash_clear *)
Definition clear (s : flog) (m : flash) (ef : bool) : flog * flash * status :=
  if ef then (s, m, EraseFailed)
  else (FLog [] SS false (f_id s) (repeat 0 NS) 0 0, erase m 0 (NS * SS), Ok).

(** logging_flash.c:210-234, logging_flash_get_size *)
Definition get_size (s : flog) : nat :=
  fold_left Nat.add (f_used s) 0 + length (f_buf s) - (if f_term s then header_size else 0).

(** logging_flash.c:256-280, the loop of logging_flash_read_contents: bytes read, and what is left of the offset and
    the length. *)
Fixpoint read_sectors (fuel : nat) (s : flog) (m : flash) (i offset len : nat) : list N * nat * nat :=
  match fuel with
  | O => ([], offset, len)
  | S f =>
    if negb (len =? 0) && negb (nth i (f_used s) 0 =? 0) then
      let u := nth i (f_used s) 0 in
      let o := if offset <? u then offset else u in
      let n := if len <? u - o then len else u - o in
      let '(l, o', n') := read_sectors f s m ((i + 1) mod NS) (offset - o) (len - n) in (rd m (SS * i + o) n ++ l, o', n')
    else ([], offset, len)
  end.

(** logging_flash.c:236-296, logging_flash_read_contents; [None] is a read outside the buffer (the subtraction of line
    285 goes below zero). *)
Definition read_contents (s : flog) (m : flash) (offset len : nat) : option (list N) :=
  let '(l, o, n) := read_sectors NS s m (f_start s) offset len in
  let b := length (f_buf s) in
  if f_term s && (b <? header_size) then None
  else
    let b := if f_term s then b - header_size else b in
    let o := if o <? b then o else b in
    let n := if n <? b - o then n else b - o in Some (l ++ window o n (f_buf s)).

(** The local variables of logging_flash_init_state, logging_flash.c:346-356. *)
Record scan := Scan { s_found : nat; s_addr : nat; s_id : N; s_prev : N; s_start : nat }.

Definition next_sector (a : nat) : nat := a - a mod SS + SS.
Definition skip_sector (c : scan) : scan :=
  if s_found c =? 0 then Scan 0 (next_sector (s_addr c)) (s_id c) (s_prev c) (s_start c) else c.
(** logging_flash.c:384-407: no entry here. *)
Definition no_entry (c : scan) (pos : list N) : scan :=
  if s_found c =? 0 then
    if s_addr c mod SS =? 0 then Scan 1 (s_addr c) (s_id c) (s_prev c) (s_start c)
    else if forallb (fun b => (b =? 255)%N) pos then Scan 1 (s_addr c) (s_id c) (s_prev c) (s_start c)
    else skip_sector c
  else c.
(** logging_flash.c:428-440: an entry. *)
Definition note_entry (c : scan) (sector : nat) (id : N) (len : nat) : scan :=
  if s_found c <? 2 then
    let e := ((id + 1) mod 2 ^ 32)%N in
    if (e <? s_prev c)%N then Scan 2 (s_addr c) (s_prev c) (s_prev c) sector
    else if s_found c =? 0 then Scan 0 (s_addr c + len) e e (s_start c)
    else Scan (s_found c) (s_addr c) e (s_prev c) (s_start c)
  else c.

(** logging_flash.c:378-445: the entries of a sector; also the bytes used in it. *)
Fixpoint scan_entries (fuel : nat) (sector : nat) (c : scan) (used : nat) (pos : list N) : scan * nat :=
  match fuel with
  | O => (c, used)
  | S f =>
    if length pos <? header_size then (c, used)
    else
      let magic := nth 0 pos 0%N in
      if negb (is_entry_start magic) || (N.land magic 0xf =? 0xA)%N then (no_entry c pos, used)
      else
        let raw := le_value (window 1 2 pos) in
        let len := N.to_nat (raw mod TERMINATOR) in
        if (length pos <? len) || (len <? header_size) then (skip_sector c, used)
        else if (TERMINATOR <=? raw)%N then (skip_sector c, used)
        else scan_entries f sector (note_entry c sector (le_value (window 3 4 pos)) len) (used + len) (skipn len pos)
  end.

(** logging_flash.c:370-451: sectors from [i] on. *)
Fixpoint scan_sectors (k : nat) (i : nat) (c : scan) (m : flash) : scan * list nat :=
  match k with
  | O => (c, [])
  | S k' =>
    let '(c1, u) := scan_entries (S SS) i c 0 (rd m (SS * i) SS) in
    let c2 := if SS - s_addr c1 mod SS <? header_size then Scan (s_found c1) (next_sector (s_addr c1)) (s_id c1) (s_prev c1) (s_start c1) else c1 in
    let '(c3, us) := scan_sectors k' (i + 1) c2 m in (c3, u :: us)
  end.

(** logging_flash.c:346-469, logging_flash_init_state *)
Definition init_state (m : flash) : flog :=
  let '(c, us) := scan_sectors NS 0 (Scan 0 0 0 0 0) m in
  let a := if NS * SS <=? s_addr c then 0 else s_addr c in
  FLog [] (SS - a mod SS) false (s_id c) us a (s_start c).

Inductive op := Create (e : list N) (ef : bool) (w : wresult) | Flush (ef : bool) (w : wresult) | Clear (ef : bool) | Reboot.

Definition step (st : flog * flash) (o : op) : flog * flash * status :=
  let '(s, m) := st in
  match o with
  | Create e ef w => create_entry s m e ef w
  | Flush ef w => flush s m ef w
  | Clear ef => clear s m ef
  | Reboot => (init_state m, m, Ok)
  end.

Fixpoint run (st : flog * flash) (l : list op) : flog * flash * list status :=
  match l with
  | [] => (st, [])
  | o :: q => let '(s, m, r) := step st o in let '(s', m', rs) := run (s, m) q in (s', m', r :: rs)
  end.
End FlashLog.
