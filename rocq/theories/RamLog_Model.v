(** Model of core/logging/logging_memory.c: a circular log of fixed-size entries in memory.
    The lock is not modelled: every function holds it from its first to its last access of the state,
    so each call is one atomic step.  Pointers are assumed non-NULL. *)
From Coq Require Import List NArith Bool Arith.
From Verif Require Import Base BufferUtil_Model.
Import ListNotations.

(** logging.h:34-38, struct logging_entry_header (packed): magic, 16-bit length, 32-bit id. *)
Definition header_size : nat := 7.
Definition LOGGING_MAGIC_START : N := 0xCB%N.
Definition header_bytes (len id : N) : list N := LOGGING_MAGIC_START :: le16 len ++ le32 id.

(** logging.h:20, LOGGING_IS_ENTRY_START *)
Definition is_entry_start (magic : N) : bool := (N.land magic 0xF0 =? 0xC0)%N.

(** logging_memory.h:17-35.  The buffer is the memory the log owns. *)
Record ramlog := {
  log_start : nat;
  log_end : nat;
  next_entry_id : N;
  is_full : bool;
  log_buffer : list N
}.

(** Configuration fixed at initialisation. *)
Record ramlog_cfg := { log_size : nat; entry_size : nat }.

(** logging_memory.c:190-201 (logging_memory_init_from_buffer): sizes derived from the buffer and the
    entry length. *)
Definition ramlog_config (buffer_len entry_length : nat) : ramlog_cfg :=
  let es := entry_length + header_size in
  {| log_size := buffer_len - buffer_len mod es; entry_size := es |}.

(** logging_memory.c:333-346 (logging_memory_init_state): [None] is LOGGING_INSUFFICIENT_STORAGE. *)
Definition ramlog_init (c : ramlog_cfg) (memory : list N) : option ramlog :=
  if log_size c <? entry_size c then None
  else Some {| log_start := 0; log_end := 0; next_entry_id := 0; is_full := false; log_buffer := memory |}.

(** logging_memory.c:12-48; the result [false] is LOGGING_BAD_ENTRY_LENGTH. *)
Definition create_entry (c : ramlog_cfg) (s : ramlog) (entry : list N) : ramlog * bool :=
  if negb (length entry =? entry_size c - header_size) then (s, false)
  else
    let hdr := header_bytes (N.of_nat (header_size + length entry)) (next_entry_id s) in
    let id := ((next_entry_id s + 1) mod 2 ^ 32)%N in
    let buf := splice (log_buffer s) (log_end s) hdr in
    let e1 := log_end s + header_size in
    let buf := splice buf e1 entry in
    let e2 := e1 + length entry in
    let '(e3, full) := if e2 =? log_size c then (0, true) else (e2, is_full s) in
    let start := if full then e3 else log_start s in
    ({| log_start := start; log_end := e3; next_entry_id := id; is_full := full; log_buffer := buf |}, true).

(** logging_memory.c:59-77 *)
Definition clear (c : ramlog_cfg) (s : ramlog) : ramlog :=
  {| log_start := 0; log_end := 0; next_entry_id := next_entry_id s; is_full := false;
     log_buffer := splice (log_buffer s) 0 (repeat 0%N (log_size c)) |}.

(** logging_memory.c:90,115: the log has entries. *)
Definition has_entries (s : ramlog) : bool := negb (log_end s =? log_start s) || is_full s.

(** logging_memory.c:79-102 *)
Definition get_size (c : ramlog_cfg) (s : ramlog) : nat :=
  if has_entries s then
    if log_end s =? log_start s then log_size c else log_end s
  else 0.

(** logging_memory.c:104-129.  [contents] is the caller's buffer; result: bytes read and the buffer. *)
Definition read_contents (c : ramlog_cfg) (s : ramlog) (offset : nat) (contents : list N) (len : nat)
    : nat * list N :=
  if has_entries s then
    let '(first_copy, offset, len, contents) :=
      if log_end s =? log_start s then
        match buffer_copy (Some (firstn (log_size c - log_start s) (skipn (log_start s) (log_buffer s))))
                (Some offset) (Some len) (Some contents) with
        | (n, Some o, Some l, Some d) => (n, o, l, d)
        | _ => (0, offset, len, contents)
        end
      else (0, offset, len, contents) in
    match buffer_copy (Some (firstn (log_end s) (log_buffer s))) (Some offset) (Some len)
            (Some (skipn first_copy contents)) with
    | (n, _, _, Some d) => (first_copy + n, firstn first_copy contents ++ d)
    | (n, _, _, None) => (first_copy + n, contents)
    end
  else (0, contents).

(** Fields of the header at byte [pos] of the buffer. *)
Definition hdr_magic (buf : list N) (pos : nat) : N := nth pos buf 0%N.
Definition hdr_length (buf : list N) (pos : nat) : nat := N.to_nat (le_value (window (pos + 1) 2 buf)).
Definition hdr_id (buf : list N) (pos : nat) : N := le_value (window (pos + 3) 4 buf).

(** logging_memory.c:226-238, the scan loop of logging_memory_find_last_entry.  [prev] tells whether an
    entry has been seen.  [fuel] bounds the iterations; the scan ends after at most one iteration per
    slot plus one. *)
Fixpoint find_last_loop (fuel : nat) (c : ramlog_cfg) (prev : bool) (s : ramlog) : ramlog :=
  match fuel with
  | O => s
  | S f =>
    if negb (is_full s) && negb (log_end s =? log_size c) &&
       is_entry_start (hdr_magic (log_buffer s) (log_end s)) then
      let id := hdr_id (log_buffer s) (log_end s) in
      if prev && negb (id =? next_entry_id s)%N then
        find_last_loop f c prev
          {| log_start := log_end s; log_end := log_end s; next_entry_id := next_entry_id s;
             is_full := true; log_buffer := log_buffer s |}
      else
        find_last_loop f c true
          {| log_start := log_start s; log_end := log_end s + entry_size c;
             next_entry_id := ((id + 1) mod 2 ^ 32)%N; is_full := is_full s; log_buffer := log_buffer s |}
    else s
  end.

(** logging_memory.c:221-244 *)
Definition find_last_entry (c : ramlog_cfg) (s : ramlog) : ramlog :=
  let s := find_last_loop (S (S (log_size c / entry_size c))) c false s in
  if log_end s =? log_size c then
    {| log_start := log_start s; log_end := 0; next_entry_id := next_entry_id s; is_full := true;
       log_buffer := log_buffer s |}
  else s.

(** logging_memory.c:268-281 and 360-372: start again on memory that survived a reset. *)
Definition ramlog_init_append_existing (c : ramlog_cfg) (memory : list N) : option ramlog :=
  match ramlog_init c memory with
  | None => None
  | Some s => Some (find_last_entry c s)
  end.

(** logging_memory.c:416-429, the loop of logging_memory_copy_entries, for a destination log that
    accepts every entry: the list of entries it is given.  [fuel] bounds the iterations; [None] means
    it ran out. *)
Fixpoint copy_entries_loop (fuel : nat) (c : ramlog_cfg) (s : ramlog) (pos : nat) : option (list (list N)) :=
  match fuel with
  | O => None
  | S f =>
    let len := hdr_length (log_buffer s) pos in
    let entry := window (pos + header_size) (len - header_size) (log_buffer s) in
    let pos := pos + len in
    let pos := if log_size c <=? pos then 0 else pos in
    if pos =? log_end s then Some [entry]
    else match copy_entries_loop f c s pos with
         | None => None
         | Some t => Some (entry :: t)
         end
  end.

(** logging_memory.c:399-436 *)
Definition copy_entries (c : ramlog_cfg) (s : ramlog) : option (list (list N)) :=
  if negb (log_start s =? log_end s) || is_full s then
    copy_entries_loop (S (log_size c / entry_size c)) c s (log_start s)
  else Some [].

(** Operations of the API and their execution. *)
Inductive ramlog_op := Create (entry : list N) | Clear.
Definition ramlog_step (c : ramlog_cfg) (s : ramlog) (op : ramlog_op) : ramlog :=
  match op with
  | Create e => fst (create_entry c s e)
  | Clear => clear c s
  end.
Definition ramlog_run (c : ramlog_cfg) (s : ramlog) (ops : list ramlog_op) : ramlog :=
  fold_left (ramlog_step c) ops s.
