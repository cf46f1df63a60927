(** Manifests on flash: core/manifest/manifest_flash.c.

    The flash may be changed by somebody else at any time: [rd k a n] is what the [k]-th access of an operation reads as
    the [n] bytes at [a], or [None] for an error.  Accesses that leave the device fail.  A failure of the hash engine
    has the same effect as a failed read and is part of it; [eng k] says that the [k]-th other use of an engine (starting
    or finishing a hash, verifying a signature) works.

    Simplifications: NULL pointers are not given; hashes are kept as lists of their length instead of arrays of the
    maximum length; an error is only told apart where a caller does so; the digest a caller may ask for is the one kept
    in the state.  A range to hash that leaves the device is refused at once rather than after the part inside it has
    been read, which has no effect that remains. *)
From Coq Require Import List NArith Bool Arith.
From Verif Require Import Base.
Import ListNotations.
Local Open Scope N_scope.

(** manifest_format.h:14 and 97-117 *)
Definition NOT_SUPPORTED : N := 65535.
Definition NO_PARENT : N := 255.
Definition MAX_ENTRIES : N := 255.
Definition EXTENSION_ENTRY : N := 254.
Definition T_PLATFORM : N := 0.       (* 86-89 *)
Definition T_EXTENSION : N := 1.
Definition HEADER_LEN : N := 12.      (* 74-81, sizeof (struct manifest_header) *)
Definition TOC_HEADER : N := 4.       (* 122-127 *)
Definition ENTRY_LEN : N := 8.        (* 132-139 *)
Definition BLOCK : nat := 256.        (* flash_util.h:19, FLASH_VERIFICATION_BLOCK *)

Definition u8 (l : list N) (o : nat) : N := nth o l 0.
Definition u16 (l : list N) (o : nat) : N := le_value (window o 2 l).
Definition u32 (l : list N) (o : nat) : N := le_value (window o 4 l).

(** manifest_format.h:74-81 *)
Record mheader := MHeader { h_length : N; h_magic : N; h_id : N; h_sig : N; h_sigtype : N }.
Definition parse_header (l : list N) : mheader := MHeader (u16 l 0) (u16 l 2) (u32 l 4) (u16 l 8) (u8 l 10).
(** 122-127 *)
Record theader := THeader { t_entries : N; t_hashes : N; t_type : N }.
Definition parse_toc (l : list N) : theader := THeader (u8 l 0) (u8 l 1) (u8 l 2).
(** 132-139 *)
Record tentry := TEntry { e_type : N; e_parent : N; e_format : N; e_hash : N; e_offset : N; e_length : N }.
Definition parse_entry (l : list N) : tentry := TEntry (u8 l 0) (u8 l 1) (u8 l 2) (u8 l 3) (u16 l 4) (u16 l 6).

(** crypto/hash.c:182-200, 257-281 for the types manifest_format.h:60 makes of a byte; SHA-1 cannot come from one. *)
Definition hash_len (ty : N) : option N :=
  if ty =? 1 then Some 32 else if ty =? 2 then Some 48 else if ty =? 3 then Some 64 else None.
(** manifest_format.h:53-61 *)
Definition convert_type (b : N) : N := b + 1.

(** manifest_format.h:149-152 *)
Definition toc_length (entries hashes hl : N) : N := TOC_HEADER + ENTRY_LEN * entries + hl * hashes.

(** manifest_flash.h:19-31 and 39-52.  The signature and platform ID buffers belong to the state here. *)
Record mstate := MState {
  s_header : mheader; s_entries : N; s_root : list N; s_type : N; s_hl : N;
  s_digest : option (list N); s_valid : bool; s_ext : bool; s_sig : list N; s_platform : list N
}.
Definition no_state : mstate := MState (MHeader 0 0 0 0 0) 0 [] 0 0 None false false [] [].

Record mcfg := MCfg {
  c_addr : N; c_v1 : N; c_v2 : N; c_v3 : N;
  c_max_sig : N; c_max_id : N;              (* room for the platform ID, without the terminator *)
  c_size : N                                (* size of the flash device *)
}.

Inductive merr :=
| MRead | MEngine | MBadMagic | MBadLength | MSigTooLong | MSigHash | MBadSignature
| MTocInvalid | MTocHash | MTocMismatch | MExtension | MNoPlatform | MIdTooLong
| MNotFound | MChildNotFound | MNoManifest | MWrongParent | MElementInvalid | MNoMemory | MEndless.
Inductive res (A : Type) := Ok (a : A) | Err (e : merr).
Arguments Ok {A}. Arguments Err {A}.

(** The number of accesses so far and the data given to the hash. *)
Definition M (A : Type) := nat * list N -> (nat * list N) * res A.
Definition ret {A} (a : A) : M A := fun s => (s, Ok a).
Definition fail {A} (e : merr) : M A := fun s => (s, Err e).
Definition bind {A B} (f : M A) (g : A -> M B) : M B :=
  fun s => match f s with (s', Ok a) => g a s' | (s', Err e) => (s', Err e) end.
Notation "x <- f ;; g" := (bind f (fun x => g)) (at level 61, f at next level, right associativity).
Notation "f ;;; g" := (bind f (fun _ => g)) (at level 61, right associativity).
Definition check (b : bool) (e : merr) : M unit := if b then ret tt else fail e.
Definition hashed : M (list N) := fun s => (s, Ok (snd s)).

Section Manifest.
Variable hash : N -> list N -> list N.              (* the digest, by type *)
Variable sig_ok : list N -> list N -> bool.          (* a digest and a signature *)
Variable c : mcfg.
Variable rd : nat -> N -> nat -> option (list N).
Variable eng : nat -> bool.

(** One read of the flash. *)
Definition flash_read (a : N) (n : N) : M (list N) :=
  fun s => ((S (fst s), snd s),
            if c_size c <? a + n then Err MRead
            else match rd (fst s) a (N.to_nat n) with Some l => Ok l | None => Err MRead end).

Definition update (l : list N) : M unit := fun s => ((fst s, snd s ++ l), Ok tt).

(** One use of an engine. *)
Definition engine : M unit := fun s => ((S (fst s), snd s), if eng (fst s) then Ok tt else Err MEngine).
Definition start_hash : M unit := engine ;;; (fun s => ((fst s, []), Ok tt)).

(** flash/flash_util.c:305-324, flash_read_and_hash_update_contents *)
Definition read_hash (a : N) (n : N) : M (list N) :=
  if n =? 0 then ret [] else l <- flash_read a n ;; update l ;;; ret l.

(** flash/flash_util.c:438-452 and 497-537, flash_hash_update_contents *)
Fixpoint hash_blocks (fuel : nat) (a : N) (n : nat) : M unit :=
  match fuel with
  | O => ret tt
  | S f =>
    match n with
    | O => ret tt
    | _ =>
      let k := Nat.min n BLOCK in
      l <- flash_read a (N.of_nat k) ;; update l ;;; hash_blocks f (a + N.of_nat k) (n - k)
    end
  end.
Definition hash_range (a n : N) : M unit :=
  if n =? 0 then ret tt
  else if c_size c <? a + n then fail MRead
  else hash_blocks (N.to_nat n) a (N.to_nat n).

(** uint32_t subtraction *)
Definition sub32 (a b : N) : N := (a + 2 ^ 32 - b mod 2 ^ 32) mod 2 ^ 32.

(** manifest_flash.c:202-230, manifest_flash_read_header, with the bytes read: header->reserved is part of what is hashed. *)
Definition read_header : M (mheader * list N) :=
  l <- flash_read (c_addr c) HEADER_LEN ;;
  let h := parse_header l in
  check (negb (h_magic h =? NOT_SUPPORTED) && ((h_magic h =? c_v1 c) || (h_magic h =? c_v2 c) || (h_magic h =? c_v3 c))) MBadMagic ;;;
  check (HEADER_LEN <=? h_length h) MBadLength ;;;
  check (h_sig h <=? h_length h - HEADER_LEN) MBadLength ;;;
  ret (h, l).

(** crypto/signature_verification.c:211-253 *)
Definition verify_signature (ty : N) (sig : list N) : M (list N) :=
  check (0 <? N.of_nat (length sig)) MEngine ;;;
  engine ;;; d <- hashed ;; engine ;;;
  check (sig_ok (hash ty d) sig) MBadSignature ;;;
  ret (hash ty d).

(** manifest_flash.c:450-492: the entries of one table of contents.  [i] is the index of the next one, [left] the number
    still to be read; the result is the address after them, the first platform ID entry and whether the last one is an
    extension, with the last entry. *)
Fixpoint verify_entries (left : nat) (i next prev : N) (t : theader) (ext : bool) (plat : option tentry) (last : tentry) (found : bool) :
  M (N * option tentry * tentry * bool) :=
  match left with
  | O => ret (next, plat, last, found)
  | S f =>
    l <- read_hash next ENTRY_LEN ;;
    let e := parse_entry l in
    check (prev <=? e_offset e) MTocInvalid ;;;
    (if e_type e =? T_EXTENSION then check (ext && (i =? EXTENSION_ENTRY) && (e_hash e <? t_hashes t)) MExtension else ret tt) ;;;
    verify_entries f (i + 1) (next + ENTRY_LEN) (e_offset e + e_length e) t ext
      (if e_type e =? T_PLATFORM then match plat with Some p => Some p | None => Some e end else plat)
      e (if e_type e =? T_EXTENSION then true else found)
  end.

Definition no_entry : tentry := TEntry 0 0 0 0 0 0.

(** What verification learns from the root table of contents. *)
Record root := Root { r_type : N; r_hl : N; r_hash : list N; r_platform : list N }.

(** manifest_flash.c:390-563: the tables of contents from address [next] on.  [rt] is what is known from the root, [prev]
    the extension entry that led here; the result is the address up to which everything was hashed and the number of
    entries.  [fuel] bounds the number of tables. *)
Fixpoint verify_tocs (fuel : nat) (next : N) (rt : option root) (from : tentry) (ext : bool) (count : N) : M (N * N * root) :=
  match fuel with
  | O => fail MEndless
  | S f =>
    th <- read_hash next TOC_HEADER ;;
    let t := parse_toc th in
    let next := next + TOC_HEADER in
    check (negb (t_entries t =? 0)) MTocInvalid ;;;
    let ty := convert_type (t_type t) in
    hl <- (match rt with
           | None => match hash_len ty with Some n => ret n | None => fail MTocHash end
           | Some r =>
             check (ty =? r_type r) MTocMismatch ;;;
             check (e_length from =? toc_length (t_entries t) (t_hashes t) (r_hl r)) MExtension ;;;
             ret (r_hl r)
           end) ;;
    let prev := (next - c_addr c) + t_entries t * ENTRY_LEN + t_hashes t * hl + (match rt with None => hl | Some _ => 0 end) in
    x <- verify_entries (N.to_nat (t_entries t)) 0 next prev t ext None no_entry false ;;
    let '(next, plat, last, found) := x in
    hash_range next (hl * t_hashes t) ;;;
    let next := next + hl * t_hashes t in
    y <- (match rt with
          | Some r => ret (next, r)
          | None =>
            match plat with
            | None => fail MNoPlatform
            | Some p =>
              rh <- read_hash next hl ;;
              let next := next + hl in
              hash_range next (sub32 (c_addr c + e_offset p) next) ;;;
              let next := c_addr c + e_offset p in
              ph <- read_hash next 4 ;;
              let n := u8 ph 0 in
              check (n <=? c_max_id c) MIdTooLong ;;;
              let next := next + 4 in
              id <- read_hash next n ;;
              ret (next + n, Root ty hl rh id)
            end
          end) ;;
    let '(next, r) := y in
    let count := count + t_entries t in
    if found then
      hash_range next (sub32 (c_addr c + e_offset last) next) ;;;
      verify_tocs f (c_addr c + e_offset last) (Some r) last ext count
    else ret (next, count, r)
  end.

(** More tables than fit into the 65535 bytes of a manifest: with an extension a table takes 2044 bytes or more. *)
Definition TABLES : nat := 64.

(** manifest_flash.c:246-304 and 601-635, manifest_flash_verify, with 349-586, manifest_flash_verify_v2, and 317-336,
    manifest_flash_verify_v1, from any state: what is returned is the new state. *)
Definition verify (s0 : mstate) : M mstate :=
  x <- read_header ;;
  let '(h, raw) := x in
  check (h_sig h <=? c_max_sig c) MSigTooLong ;;;
  let ty := convert_type (N.land (h_sigtype h) 7) in
  check (match hash_len ty with Some _ => true | None => false end) MSigHash ;;;
  sig <- (if h_sig h =? 0 then ret [] else flash_read (c_addr c + h_length h - h_sig h) (h_sig h)) ;;
  let ext := h_magic h =? c_v3 c in
  let sig_addr := c_addr c + h_length h - h_sig h in
  if negb (c_v1 c =? NOT_SUPPORTED) && (h_magic h =? c_v1 c) then
    start_hash ;;;
    check (0 <? h_length h - h_sig h) MEngine ;;;
    hash_range (c_addr c) (h_length h - h_sig h) ;;;
    d <- verify_signature ty sig ;;
    ret (MState h (s_entries s0) (s_root s0) (s_type s0) (s_hl s0) (Some d) true ext sig (s_platform s0))
  else
    start_hash ;;;
    update raw ;;;
    y <- verify_tocs TABLES (c_addr c + HEADER_LEN) None no_entry ext 0 ;;
    let '(next, count, r) := y in
    hash_range next (sub32 sig_addr next) ;;;
    d <- verify_signature ty sig ;;
    ret (MState h count (r_hash r) (r_type r) (r_hl r) (Some d) true ext sig (r_platform r)).

(** manifest_flash.c:822-834 *)
Definition in_types (types : list N) (x : N) : bool := existsb (N.eqb x) types.

(** manifest_flash.c:965-998: look through the entries of a table from [local] on; [last] is the entry read before. *)
Fixpoint scan_entries (left : nat) (local next : N) (t : theader) (ext : bool) (types : list N) (parent : N) (last : tentry) :
  M (N * N * tentry) :=
  match left with
  | O => ret (local, next, last)
  | S f =>
    l <- read_hash next ENTRY_LEN ;;
    let e := parse_entry l in
    if e_type e =? T_EXTENSION then
      check (ext && (local =? EXTENSION_ENTRY) && (e_hash e <? t_hashes t)) MExtension ;;;
      scan_entries f (local + 1) (next + ENTRY_LEN) t ext types parent e
    else
      check (negb (negb (parent =? NO_PARENT) && (e_parent e =? NO_PARENT))) MChildNotFound ;;;
      if in_types types (e_type e) then ret (local + 1, next + ENTRY_LEN, e)
      else scan_entries f (local + 1) (next + ENTRY_LEN) t ext types parent e
  end.

(** manifest_flash.c:915-1054: the tables from address [next] on, the first of them with hash [want] and [index] entries
    before it.  The result is the entry found, its index, its hash if it has one. *)
Fixpoint find_entry (fuel : nat) (s : mstate) (types : list N) (start parent : N) (next index : N) (want : list N) :
  M (tentry * N * option (list N)) :=
  match fuel with
  | O => fail MEndless
  | S f =>
    start_hash ;;;
    th <- read_hash next TOC_HEADER ;;
    let t := parse_toc th in
    let toc_end := next + toc_length (t_entries t) (t_hashes t) (s_hl s) in
    let next := next + TOC_HEADER in
    check (convert_type (t_type t) =? s_type s) MTocMismatch ;;;
    let local := if index <? start then start - index else 0 in
    local <- (if t_entries t <=? local then
                if t_entries t =? MAX_ENTRIES then ret EXTENSION_ENTRY else fail MTocInvalid
              else ret local) ;;
    hash_range next (ENTRY_LEN * local) ;;;
    let next := next + ENTRY_LEN * local in
    x <- scan_entries (N.to_nat (t_entries t - local)) local next t (s_ext s) types parent no_entry ;;
    let '(local, next, e) := x in
    let index := index + local in
    check (in_types types (e_type e) || (e_type e =? T_EXTENSION)) (if parent =? NO_PARENT then MNotFound else MChildNotFound) ;;;
    y <- (if e_hash e <? t_hashes t then
            let skip := (t_entries t - local) * ENTRY_LEN + s_hl s * e_hash e in
            hash_range next skip ;;;
            let next := next + skip in
            eh <- read_hash next (s_hl s) ;;
            ret (next + s_hl s, Some eh)
          else ret (next, None)) ;;
    let '(next, eh) := y in
    hash_range next (sub32 toc_end next) ;;;
    engine ;;;
    d <- hashed ;;
    check (if list_eq_dec N.eq_dec (hash (s_type s) d) want then true else false) MTocInvalid ;;;
    if e_type e =? T_EXTENSION then
      find_entry f s types start parent (c_addr c + e_offset e) index (match eh with Some h => h | None => want end)
    else ret (e, index - 1, eh)
  end.

(** How the caller wants the data. *)
Inductive wanted := NoData | Buffer (room : N) | Allocated.
Record element := Element { el_index : N; el_type : N; el_format : N; el_total : N; el_data : list N }.

(** manifest_flash.c:865-1151, manifest_flash_read_element_data_common.  Line 1107: toc_entry.offset is a uint16_t. *)
Definition read_element (fuel : nat) (s : mstate) (types : list N) (start parent read_offset : N) (w : wanted) : M element :=
  check (s_valid s) MNoManifest ;;;
  check (start <? s_entries s) (if parent =? NO_PARENT then MNotFound else MChildNotFound) ;;;
  x <- find_entry fuel s types start parent (c_addr c + HEADER_LEN) 0 (s_root s) ;;
  let '(e, index, eh) := x in
  check ((e_parent e =? NO_PARENT) || (e_parent e =? parent)) MWrongParent ;;;
  let room := if e_length e <=? read_offset then 0
              else match w with NoData => 0 | Buffer n => n | Allocated => e_length e - read_offset end in
  if room =? 0 then ret (Element index (e_type e) (e_format e) (e_length e) [])
  else
    (match w with Allocated => engine | _ => ret tt end) ;;;          (* the allocation *)
    let left := e_length e - read_offset in
    let n := N.min room left in
    let offset := (e_offset e + read_offset) mod 65536 in
    match eh with
    | Some h =>
      start_hash ;;;
      hash_range (c_addr c + e_offset e) read_offset ;;;
      l <- flash_read (c_addr c + offset) n ;;
      update l ;;;
      hash_range (c_addr c + offset + n) (left - n) ;;;
      engine ;;;
      d <- hashed ;;
      check (if list_eq_dec N.eq_dec (hash (s_type s) d) h then true else false) MElementInvalid ;;;
      ret (Element index (e_type e) (e_format e) (e_length e) l)
    | None =>
      l <- flash_read (c_addr c + offset) n ;;
      ret (Element index (e_type e) (e_format e) (e_length e) l)
    end.
End Manifest.
