(** Model of core/recovery/recovery_image.c, core/recovery/recovery_image_header.c,
    core/recovery/recovery_image_section_header.c and core/common/image_header.c: recovery images in flash, their
    verification and how they are programmed into the flash of the host.

    The image is in a flash of [size] bytes; a read that starts at [a] fails if [rbad a], and every read beyond the end
    of the flash fails.  [nomem n] says that an allocation of [n] bytes fails.  The hash and the signature check are
    functions of the bytes they are given.  Reads of the header data beyond the allocated buffer are an outcome of their
    own, [Oob].  size_t and the addresses have 32 bits and wrap; `rem_len` is an int, and its conversion from size_t
    wraps as well.  Loops take a bound on the number of rounds and give [None] when it is not enough.
    The copy into the host's flash is copy_region of FlashUtil_Model.
    Not modelled: NULL arguments, a hash buffer that is too small, failures of the hash engine. *)
From Coq Require Import List NArith ZArith Bool Arith.
From Verif Require Import Base Flash_Base FlashUtil_Model.
Import ListNotations.
Local Open Scope N_scope.

Inductive rerror :=
| ENotMinimum | EBadMarker | ETooLong | ENoMemory | ERead | EFormatLength | EPlatformId | EImageLength | EVersionId
| EMalformed | ESectionAddress | EIncompatible | EBadSignature | ESignature | EPlatform | ECopy (f : futil).

Inductive res (A : Type) := Ok (a : A) | Err (e : rerror) | Oob.
Arguments Ok {A}. Arguments Err {A}. Arguments Oob {A}.

Definition bind {A B} (m : res A) (f : A -> res B) : res B :=
  match m with Ok a => f a | Err e => Err e | Oob => Oob end.
Notation "x <- m ;; k" := (bind m (fun x => k)) (at level 61, m at next level, right associativity).

Definition u16 (l : list N) (o : nat) : N := le_value (window o 2 l).
Definition u32 (l : list N) (o : nat) : N := le_value (window o 4 l).

(** image_header.h:16-20; recovery_image_header.h:16-17; recovery_image_section_header.h:16-17 *)
Definition INFO_LEN : N := 8.
Definition IMAGE_MARKER : N := 0x8a147c29.
Definition SECTION_MARKER : N := 0x4b172f31.
Definition MAX_HEADER : N := 1024.
(** cerberus_protocol.h:30 and recovery_image_header.c:13-33 *)
Definition VERSION_LEN : nat := 32.
Definition FORMAT0_LEN : nat := 41.

(** Wrapping to uint32_t and to int. *)
Definition w32 (x : N) : N := x mod 2 ^ 32.
Definition sub32 (a b : N) : N := (a + 2 ^ 32 - b mod 2 ^ 32) mod 2 ^ 32.
Definition s32 (x : Z) : Z := ((x + 2 ^ 31) mod 2 ^ 32 - 2 ^ 31)%Z.

Record header := Header { h_length : N; h_format : N; h_data : list N }.

(** strnlen on the bytes of a buffer: [None] if it runs over the end. *)
Fixpoint strnlen (l : list N) (n : nat) {struct n} : option nat :=
  match n with
  | O => Some O
  | S k =>
    match l with
    | [] => None
    | b :: t => if b =? 0 then Some O else match strnlen t k with Some j => Some (S j) | None => None end
    end
  end.

(** strcmp (a, b) == 0 for a string [a] (given without its terminator) and the bytes of a buffer. *)
Fixpoint str_equal (a : list N) (b : list N) : option bool :=
  match b with
  | [] => None
  | y :: b' =>
    match a with
    | [] => Some (y =? 0)
    | x :: a' => if x =? y then str_equal a' b' else Some false
    end
  end.

Inductive sig_result := SigGood | SigBad | SigFails.

Section Image.
Variable m : image.
Variable size : N.
Variable rbad : N -> bool.
Variable nomem : N -> bool.
Variable hash : list N -> list N.
Variable check_sig : list N -> list N -> sig_result.

Definition flash_read (a n : N) : res (list N) :=
  if (size <? a + n) || rbad a then Err ERead else Ok (img_read m a (N.to_nat n)).

(** image_header.c:20-49 and 73-94, image_header_init and image_header_load_data.  recovery_image_section_header_init
    checks the format in between: that part is [data_ok]. *)
Definition load_header (a marker : N) (data_ok : N -> N -> bool) : res header :=
  i <- flash_read a INFO_LEN ;;
  let len := u16 i 0 in
  let format := u16 i 2 in
  if len <? INFO_LEN then Err ENotMinimum
  else if negb (u32 i 4 =? marker) then Err EBadMarker
  else if MAX_HEADER <? len then Err ETooLong
  else if negb (data_ok format (len - INFO_LEN)) then Err EFormatLength
  else if nomem (len - INFO_LEN) then Err ENoMemory
  else d <- flash_read (w32 (a + INFO_LEN)) (len - INFO_LEN) ;; Ok (Header len format d).

(** recovery_image_header.c:45-116, recovery_image_header_init; 139-236, what is read from the header afterwards. *)
Definition version_id (h : header) : list N := firstn VERSION_LEN (h_data h).
Definition image_length (h : header) : N := u32 (h_data h) 32.
Definition signature_length (h : header) : N := u32 (h_data h) 36.
Definition platform_bytes (h : header) : list N := skipn FORMAT0_LEN (h_data h).

Definition header_init (a : N) : res header :=
  h <- load_header a IMAGE_MARKER (fun _ _ => true) ;;
  let d := h_data h in
  if h_format h =? 0 then
    match strnlen d VERSION_LEN with
    | None => Oob
    | Some version_len =>
      match nth_error d 40 with
      | None => Oob
      | Some id_len =>
        if negb (sub32 (N.of_nat (length d)) id_len =? N.of_nat FORMAT0_LEN) then Err EFormatLength
        else
          match strnlen (skipn FORMAT0_LEN d) (N.to_nat id_len) with
          | None => Oob
          | Some n =>
            if negb (N.of_nat n + 1 =? id_len) then Err EPlatformId
            else if sub32 (image_length h) (h_length h) <? signature_length h then Err EImageLength
            else if (version_len =? VERSION_LEN)%nat || (version_len =? 0)%nat then Err EVersionId
            else Ok h
          end
      end
    end
  else if (length d <? FORMAT0_LEN)%nat then Err EFormatLength
  else Ok h.

(** recovery_image_section_header.c:37-70 and 93-143 *)
Definition section_init (a : N) : res header :=
  load_header a SECTION_MARKER (fun format n => if format =? 0 then n =? 8 else 8 <=? n).
Definition host_addr (h : header) : N := u32 (h_data h) 0.
Definition section_length (h : header) : N := u32 (h_data h) 4.

(** flash_hash_contents and flash_contents_verification, flash_util.c:339-423: the bytes that are hashed. *)
Definition hashed (a n : N) : res (list N) :=
  if n =? 0 then Err ESignature
  else if size <? a + n then Err ERead
  else match hash_stream rbad (N.to_nat n) m a (N.to_nat n) with Some d => Ok d | None => Err ERead end.

(** recovery_image.c:23-56, recovery_image_check_platform_id.  [None]: there is no active PFM; [Some None]: its platform
    ID cannot be read. *)
Definition check_platform (pfm : option (option (list N))) (h : header) : res unit :=
  match pfm with
  | None => Ok tt
  | Some None => Err EPlatform
  | Some (Some id) =>
    match str_equal id (platform_bytes h) with
    | None => Oob
    | Some true => Ok tt
    | Some false => Err EIncompatible
    end
  end.

(** recovery_image.c:131-157, the loop over the sections. *)
Fixpoint check_sections (fuel : nat) (next : N) (rem : Z) (min_host : N) : option (res unit) :=
  match fuel with
  | O => None
  | S f =>
    if (rem <=? 0)%Z then Some (if (rem <? 0)%Z then Err EMalformed else Ok tt)
    else
      match section_init next with
      | Oob => Some Oob
      | Err _ => Some (Err EMalformed)
      | Ok h =>
        if host_addr h <? min_host then Some (Err ESectionAddress)
        else
          let n := w32 (h_length h + section_length h) in
          check_sections f (w32 (next + n)) (s32 (rem - Z.of_N n)) (w32 (host_addr h + section_length h))
      end
  end.

(** recovery_image.c:58-165, recovery_image_verify of the image at [addr]: the digest that is cached, and the result. *)
Definition verify (fuel : nat) (addr : N) (pfm : option (option (list N))) : option (list N) * option (res unit) :=
  match header_init addr with
  | Err e => (None, Some (Err e))
  | Oob => (None, Some Oob)
  | Ok h =>
    let sig_len := signature_length h in
    let img_len := image_length h in
    if nomem sig_len then (None, Some (Err ENoMemory))
    else
      match flash_read (w32 (sub32 (addr + img_len) sig_len)) sig_len with
      | Err e => (None, Some (Err e))
      | Oob => (None, Some Oob)
      | Ok sig =>
        match (if sig_len =? 0 then Err ESignature else hashed addr (sub32 img_len sig_len)) with
        | Err e => (None, Some (Err e))
        | Oob => (None, Some Oob)
        | Ok d =>
          match check_sig (hash d) sig with
          | SigFails => (None, Some (Err ESignature))
          | SigBad => (Some (hash d), Some (Err EBadSignature))
          | SigGood =>
            (Some (hash d),
             match check_platform pfm h with
             | Err e => Some (Err e)
             | Oob => Some Oob
             | Ok _ =>
               let rem := s32 (Z.of_N (sub32 (sub32 img_len (h_length h)) sig_len)) in
               if (rem <=? 0)%Z then Some (Err EMalformed)
               else check_sections fuel (w32 (addr + h_length h)) rem 0
             end)
          end
        end
      end
  end.

(** recovery_image.c:167-204, recovery_image_get_hash *)
Definition get_hash (cache : option (list N)) (addr : N) : res (list N) :=
  match cache with
  | Some d => Ok d
  | None =>
    h <- header_init addr ;;
    d <- hashed addr (sub32 (image_length h) (signature_length h)) ;;
    Ok (hash d)
  end.

(** recovery_image.c:206-231, recovery_image_get_version *)
Fixpoint cstring (l : list N) : list N :=
  match l with [] => [] | b :: t => if b =? 0 then [] else b :: cstring t end.
Definition get_version (addr : N) : res (list N) :=
  h <- header_init addr ;; Ok (cstring (version_id h)).

(** The flash of the host: its faults and its page size. *)
Variable rfail : N -> bool.
Variable efail : N -> bool.
Variable wres : N -> option nat.
Variable page : N.

(** recovery_image.c:265-288, the loop over the sections. *)
Fixpoint apply_sections (fuel : nat) (t : image) (next : N) (rem : Z) : image * option (res unit) :=
  match fuel with
  | O => (t, None)
  | S f =>
    if (rem <=? 0)%Z then (t, Some (if (rem <? 0)%Z then Err EMalformed else Ok tt))
    else
      match section_init next with
      | Oob => (t, Some Oob)
      | Err e => (t, Some (Err e))
      | Ok h =>
        match copy_region rfail efail wres (Some m) t (host_addr h) (w32 (next + h_length h)) (N.to_nat (section_length h))
                false page page page true with
        | (t', FuOk) =>
          let n := w32 (h_length h + section_length h) in
          apply_sections f t' (w32 (next + n)) (s32 (rem - Z.of_N n))
        | (t', e) => (t', Some (Err (ECopy e)))
        end
      end
  end.

(** recovery_image.c:233-291, recovery_image_apply_to_flash; [t] is the flash of the host. *)
Definition apply (fuel : nat) (t : image) (addr : N) : image * option (res unit) :=
  match header_init addr with
  | Err e => (t, Some (Err e))
  | Oob => (t, Some Oob)
  | Ok h =>
    apply_sections fuel t (w32 (addr + h_length h))
      (s32 (Z.of_N (sub32 (sub32 (image_length h) (h_length h)) (signature_length h))))
  end.
End Image.
