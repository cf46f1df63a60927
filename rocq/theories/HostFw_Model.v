(** Host firmware utilities: core/host_fw/host_fw_util.c.
    Addresses and lengths are 32-bit (uint32_t, and size_t on the target); the sums and differences
    the code computes with them wrap.  The device operations are those of FlashUtil_Model, with the
    same fault functions.  Loops whose exit depends on the region lists get as much fuel as there are
    regions; [None] as a result says that the fuel ran out, which HostFw_Walk_Proofs shows to mean
    that the C loop never ends.

    Simplifications: NULL checks of the arguments are dropped, memory allocation succeeds, and
    get_device_size is a parameter that does not fail. *)
From Coq Require Import List NArith Bool Arith.
From Verif Require Import Base Flash_Base FlashUtil_Model BufferUtil_Model.
Import ListNotations.
Local Open Scope N_scope.

Definition W32 : N := 2 ^ 32.
Definition u32 (x : N) : N := x mod W32.
Definition sub32 (a b : N) : N := (a + W32 - b) mod W32.

(** struct flash_region, flash_util.h. *)
Record region := mkR { start : N; len : N }.

(** enum pfm_read_write_management, pfm.h 42-47, and struct pfm_read_write_regions, pfm.h 61-65. *)
Inductive on_failure := RwIgnore | RwRestore | RwErase | RwReserved.

(** struct rsa_public_key, rsa.h. *)
Record rsa_key := mkKey { modulus : list N; mod_length : nat; exponent : N }.

(** struct pfm_image_signature, pfm.h 70-77; the signature is the whole array. *)
Record sig_image := mkSig {
  si_regions : list region; si_key : rsa_key; si_sig : list N; si_len : nat; si_always : N }.

(** struct pfm_image_hash, pfm.h 82-89. *)
Record hash_image := mkHash {
  hi_regions : list region; hi_hash : list N; hi_len : nat; hi_type : N; hi_always : N }.

(** struct pfm_image_list, pfm.h 98-102: exactly one of the two lists is there. *)
Inductive image_list := SigImages (l : list sig_image) | HashImages (l : list hash_image).

Definition SHA256 : N := 1.                    (* hash.h, enum hash_type *)

Inductive hf_result :=
| HfOk | HfFlash (r : futil) | HfInvalid | HfHashErr | HfBadSignature | HfBadHash
| HfDiffCount | HfDiffAddr | HfDiffSize | HfDiffFw | HfFilter | HfUnsupported.

(** host_fw_find_next_region, 179-198; [best] is `next`. *)
Fixpoint find_next_from (best : option region) (last : N) (rs : list region) : option region :=
  match rs with
  | [] => best
  | r :: t =>
    if last <=? start r then
      if start r =? last then Some r
      else match best with
           | None => find_next_from (Some r) last t
           | Some b => find_next_from (if start r <? start b then Some r else best) last t
           end
    else find_next_from best last t
  end.
Definition find_next (last : N) (rs : list region) : option region := find_next_from None last rs.

(** host_fw_find_next_rw_region, 522-543, and the loop of host_fw_find_next_img_region, 479-510: the
    lists are those of the firmware components, or of all images of all components. *)
Fixpoint find_next_in_from (best : option region) (last : N) (rss : list (list region)) : option region :=
  match rss with
  | [] => best
  | rs :: t =>
    match find_next last rs with
    | None => find_next_in_from best last t
    | Some r =>
      if start r =? last then Some r
      else match best with
           | None => find_next_in_from (Some r) last t
           | Some b => find_next_in_from (if start r <? start b then Some r else best) last t
           end
    end
  end.
Definition find_next_in (last : N) (rss : list (list region)) : option region :=
  find_next_in_from None last rss.

(** The region lists of an image list, 489-496. *)
Definition image_regions (il : image_list) : list (list region) :=
  match il with SigImages l => map si_regions l | HashImages l => map hi_regions l end.

(** host_fw_find_next_img_region, 479-510. *)
Definition find_next_img (last : N) (ils : list image_list) : option region :=
  find_next_in last (concat (map image_regions ils)).

(** host_fw_find_next_flash_region, 556-579. *)
Definition find_next_flash (last : N) (ils : list image_list) (writable : list (list region)) : option region :=
  let next := find_next_img last ils in
  match next with
  | Some n =>
    if start n =? last then next
    else match find_next_in last writable with
         | None => next
         | Some rw => if start rw =? last then Some rw
                      else if start rw <? start n then Some rw else next
         end
  | None => find_next_in last writable
  end.

(** last_addr = pos->start_addr + pos->length *)
Definition past (r : region) : N := u32 (start r + len r).

(** host_fw_are_regions_different, 211-242. *)
Fixpoint regions_differ_loop (fuel : nat) (last : N) (r1 r2 : list region) : option bool :=
  match find_next last r1 with
  | None => Some false
  | Some p1 =>
    match fuel with
    | O => None
    | S f =>
      match find_next last r2 with
      | None => Some true
      | Some p2 =>
        if negb (start p1 =? start p2) then Some true
        else if negb (len p1 =? len p2) then Some true
        else regions_differ_loop f (past p1) r1 r2
      end
    end
  end.
Definition regions_differ (r1 r2 : list region) : option bool :=
  if (length r1 =? length r2)%nat then regions_differ_loop (length r1) 0 r1 r2 else Some true.

(** host_fw_are_read_write_regions_different, 673-685. *)
Definition rw_regions_differ (w1 w2 : option (list region)) : option bool :=
  match w1, w2 with
  | None, None => Some false
  | Some a, Some b => regions_differ a b
  | _, _ => Some true
  end.

(** rsa_same_public_key, rsa.c 19-38. *)
Definition same_key (k1 k2 : rsa_key) : bool :=
  (exponent k1 =? exponent k2) && (mod_length k1 =? mod_length k2)%nat
  && buffer_compare 0xff (Some (modulus k1)) (Some (modulus k2)) (mod_length k1).

(** host_fw_are_images_different, 274-297, signed images: [first] is img_list1->images_sig->sig_length. *)
Fixpoint sig_images_differ (first : nat) (l1 l2 : list sig_image) : option bool :=
  match l1, l2 with
  | i1 :: t1, i2 :: t2 =>
    if negb (same_key (si_key i1) (si_key i2)) then Some true
    else if negb (si_len i1 =? si_len i2)%nat || negb (si_always i1 =? si_always i2) then Some true
    else if negb (buffer_compare 0xff (Some (si_sig i1)) (Some (si_sig i2)) first) then Some true
    else match regions_differ (si_regions i1) (si_regions i2) with
         | Some false => sig_images_differ first t1 t2
         | r => r
         end
  | _, _ => Some false
  end.

(** 298-316, hashed images: [first] is img_list1->images_hash->hash_length. *)
Fixpoint hash_images_differ (first : nat) (l1 l2 : list hash_image) : option bool :=
  match l1, l2 with
  | i1 :: t1, i2 :: t2 =>
    if negb (hi_len i1 =? hi_len i2)%nat || negb (hi_type i1 =? hi_type i2)
       || negb (hi_always i1 =? hi_always i2) then Some true
    else if negb (buffer_compare 0xff (Some (hi_hash i1)) (Some (hi_hash i2)) first) then Some true
    else match regions_differ (hi_regions i1) (hi_regions i2) with
         | Some false => hash_images_differ first t1 t2
         | r => r
         end
  | _, _ => Some false
  end.

Definition first_of {A} (f : A -> nat) (l : list A) : nat := match l with [] => 0%nat | a :: _ => f a end.

(** host_fw_are_images_different, 252-320. *)
Definition images_differ (a b : option image_list) : option bool :=
  match a, b with
  | None, None => Some false
  | Some (SigImages l1), Some (SigImages l2) =>
    if (length l1 =? length l2)%nat then sig_images_differ (first_of si_len l1) l1 l2 else Some true
  | Some (HashImages l1), Some (HashImages l2) =>
    if (length l1 =? length l2)%nat then hash_images_differ (first_of hi_len l1) l1 l2 else Some true
  | _, _ => Some true
  end.

Section HostFw.
Variable rfail : N -> bool.
Variable efail : N -> bool.
Variable wres : N -> option nat.

(** The hash engine: the digest of a message for a hash type, or an error. *)
Variable hash : N -> list N -> option (list N).
(** rsa->sig_verify: key, signature, digest. *)
Variable rsa_verify : rsa_key -> list N -> list N -> bool.
(** What the stack holds where img_hash (host_fw_util.c 356) is placed. *)
Variable stale : list N.

Definition at_nat (rs : list region) : list (N * nat) := map (fun r => (start r, N.to_nat (len r))) rs.

(** flash_verify_noncontiguous_contents_at_offset, flash_util.c 110-156, as called from
    host_fw_util.c 346-349. *)
Definition verify_sig (m : image) (offset : N) (i : sig_image) : hf_result :=
  if (length (si_regions i) =? 0)%nat || (si_len i =? 0)%nat then HfInvalid
  else match hash_regions rfail m offset (at_nat (si_regions i)) with
       | None => HfFlash FuReadErr
       | Some d =>
         match hash SHA256 d with
         | None => HfHashErr
         | Some h => if rsa_verify (si_key i) (firstn (si_len i) (si_sig i)) h then HfOk else HfBadSignature
         end
       end.

(** flash_hash_noncontiguous_contents_at_offset, flash_util.c 390-423, and the comparison,
    host_fw_util.c 356-368. *)
Definition verify_hash (m : image) (offset : N) (i : hash_image) : hf_result :=
  if (length (hi_regions i) =? 0)%nat then HfInvalid
  else match hash_regions rfail m offset (at_nat (hi_regions i)) with
       | None => HfFlash FuReadErr
       | Some d =>
         match hash (hi_type i) d with
         | None => HfHashErr
         | Some h =>
           if buffer_compare 0xff (Some (hi_hash i)) (Some (splice stale 0 h)) (hi_len i) then HfOk
           else HfBadHash
         end
       end.

Fixpoint verify_each {A} (always : A -> N) (check : A -> hf_result) (all : bool) (l : list A) : hf_result :=
  match l with
  | [] => HfOk
  | i :: t =>
    if all || negb (always i =? 0) then
      match check i with HfOk => verify_each always check all t | r => r end
    else verify_each always check all t
  end.

(** host_fw_verify_images_on_flash, 336-373. *)
Definition verify_images (m : image) (all : bool) (offset : N) (il : image_list) : hf_result :=
  match il with
  | SigImages l => verify_each si_always (verify_sig m offset) all l
  | HashImages l => verify_each hi_always (verify_hash m offset) all l
  end.

(** host_fw_verify_offset_images_multiple_fw, 448-467 (all = false), and the loop 643-648 (all = true). *)
Fixpoint verify_all_fw (m : image) (all : bool) (offset : N) (ils : list image_list) : hf_result :=
  match ils with
  | [] => HfOk
  | il :: t => match verify_images m all offset il with HfOk => verify_all_fw m all offset t | r => r end
  end.

Definition flash_status (r : futil) : hf_result := match r with FuOk => HfOk | _ => HfFlash r end.

(** The walk of host_fw_full_flash_verification_multiple_fw, 650-662. *)
Fixpoint unused_walk (fuel : nat) (m : image) (find : N -> option region) (last flash_size unused : N) : option hf_result :=
  match find last with
  | None => Some (flash_status (value_check rfail m last (N.to_nat (sub32 flash_size last)) unused))
  | Some pos =>
    match fuel with
    | O => None
    | S f =>
      match value_check rfail m last (N.to_nat (sub32 (start pos) last)) unused with
      | FuOk => unused_walk f m find (past pos) flash_size unused
      | r => Some (HfFlash r)
      end
    end
  end.

Definition all_regions (ils : list image_list) (writable : list (list region)) : list region :=
  concat (concat (map image_regions ils)) ++ concat writable.

(** host_fw_full_flash_verification_multiple_fw, 623-663. *)
Definition full_verification (m : image) (flash_size unused : N) (ils : list image_list)
  (writable : list (list region)) : option hf_result :=
  match verify_all_fw m true 0 ils with
  | HfOk =>
    unused_walk (length (all_regions ils writable)) m (fun last => find_next_flash last ils writable)
      0 flash_size unused
  | r => Some r
  end.

(** Erase block and page size of the destination flash. *)
Variable blk page : N.

(** flash_erase_region_and_verify, flash_util.c 728-731, block erase. *)
Definition erase_verify (m : image) (a l : N) : image * hf_result :=
  let '(m', r) := erase_and_verify rfail efail blk m a (N.to_nat l) in (m', flash_status r).
(** flash_erase_region, flash_util.c 576-584. *)
Definition erase (m : image) (a l : N) : image * hf_result :=
  let '(m', r) := erase_region efail blk m a (N.to_nat l) in (m', flash_status r).
(** flash_copy_ext_to_blank(_and_verify), flash_util.c 1452-1480, and flash_copy_ext_and_verify, 1406-1412:
    the same address on both devices. *)
Definition copy_ext (er ver : bool) (m src : image) (a l : N) : image * hf_result :=
  let '(m', r) := copy_region rfail efail wres (Some src) m a a (N.to_nat l) er blk blk page ver in
  (m', flash_status r).

(** 735-745 *)
Definition migrate_check (fail : hf_result) (last : N) (p : region) (srcw : option (list region)) : hf_result :=
  match fail, srcw with
  | HfOk, Some s =>
    match find_next last s with
    | None => HfOk
    | Some q => if negb (start p =? start q) then HfDiffAddr
                else if negb (len p =? len q) then HfDiffSize else HfOk
    end
  | _, _ => fail
  end.

(** host_fw_migrate_read_write_data, 727-749. The second component tells an early return ([inl]) from
    the value of migrate_fail at the end of the loop ([inr]). *)
Fixpoint migrate_erase (fuel : nat) (m : image) (last : N) (fail : hf_result) (dest : list region)
  (srcw : option (list region)) : image * option (hf_result + hf_result) :=
  match find_next last dest with
  | None => (m, Some (inr fail))
  | Some p =>
    match fuel with
    | O => (m, None)
    | S f =>
      match erase_verify m (start p) (len p) with
      | (m', HfOk) => migrate_erase f m' (past p) (migrate_check fail last p srcw) dest srcw
      | (m', r) => (m', Some (inl r))
      end
    end
  end.

(** 755-768 *)
Fixpoint migrate_copy (fuel : nat) (m src : image) (last : N) (dest : list region) : image * option hf_result :=
  match find_next last dest with
  | None => (m, Some HfOk)
  | Some p =>
    match fuel with
    | O => (m, None)
    | S f =>
      match copy_ext false true m src (start p) (len p) with
      | (m', HfOk) => migrate_copy f m' src (past p) dest
      | (m', r) => (m', Some r)
      end
    end
  end.

(** host_fw_migrate_read_write_data, 709-769. *)
Definition migrate (m : image) (dest : list region) (src : image) (srcw : option (list region)) : image * option hf_result :=
  let fail := match srcw with
              | Some s => if (length s =? length dest)%nat then HfOk else HfDiffCount
              | None => HfOk
              end in
  match migrate_erase (length dest) m 0 fail dest srcw with
  | (m1, Some (inr HfOk)) => migrate_copy (length dest) m1 src 0 dest
  | (m1, Some (inr r)) => (m1, Some r)
  | (m1, Some (inl r)) => (m1, Some r)
  | (m1, None) => (m1, None)
  end.

(** host_fw_migrate_read_write_data_multiple_fw, 815-830. *)
Fixpoint migrate_each (m : image) (fail : hf_result) (dests : list (list region)) (src : image)
  (srcws : option (list (list region))) : image * option hf_result :=
  match dests with
  | [] => (m, Some fail)
  | d :: t =>
    let s := match srcws with Some (s :: _) => Some s | _ => None end in
    let ss := match srcws with Some (_ :: r) => Some r | o => o end in
    match migrate m d src s with
    | (m', Some HfOk) => migrate_each m' fail t src ss
    | (m', Some HfDiffCount) => migrate_each m' HfDiffCount t src ss
    | (m', Some HfDiffAddr) => migrate_each m' HfDiffAddr t src ss
    | (m', Some HfDiffSize) => migrate_each m' HfDiffSize t src ss
    | (m', r) => (m', r)
    end
  end.

(** host_fw_migrate_read_write_data_multiple_fw, 799-831. *)
Definition migrate_multiple (m : image) (dests : list (list region)) (src : image)
  (srcws : option (list (list region))) : image * option hf_result :=
  match srcws with
  | Some ss => if (length dests =? length ss)%nat then migrate_each m HfOk dests src srcws else (m, Some HfDiffFw)
  | None => migrate_each m HfOk dests src None
  end.

(** host_fw_restore_flash_device, 868-883. *)
Fixpoint erase_read_only (fuel : nat) (m : image) (last flash_size : N) (writable : list region) : image * option hf_result :=
  match find_next last writable with
  | None => let '(m', r) := erase m last (sub32 flash_size last) in (m', Some r)
  | Some pos =>
    match fuel with
    | O => (m, None)
    | S f =>
      match erase m last (sub32 (start pos) last) with
      | (m', HfOk) => erase_read_only f m' (past pos) flash_size writable
      | (m', r) => (m', Some r)
      end
    end
  end.

(** 886-903 *)
Fixpoint copy_regions (m src : image) (rs : list region) : image * hf_result :=
  match rs with
  | [] => (m, HfOk)
  | r :: t =>
    match copy_ext false false m src (start r) (len r) with
    | (m', HfOk) => copy_regions m' src t
    | (m', e) => (m', e)
    end
  end.

(** host_fw_restore_flash_device, 844-906. *)
Definition restore_device (m src : image) (flash_size : N) (il : image_list) (writable : list region) : image * option hf_result :=
  match erase_read_only (length writable) m 0 flash_size writable with
  | (m1, Some HfOk) => let '(m2, r) := copy_regions m1 src (concat (image_regions il)) in (m2, Some r)
  | (m1, r) => (m1, r)
  end.

(** host_fw_restore_read_write_data, 920-956. *)
Fixpoint restore_rw (m : image) (src : option image) (writable : list (region * on_failure)) : image * hf_result :=
  match writable with
  | [] => (m, HfOk)
  | (r, prop) :: t =>
    let '(m', res) := match prop, src with
                      | RwErase, _ => erase_verify m (start r) (len r)
                      | RwRestore, Some s => copy_ext true true m s (start r) (len r)
                      | _, _ => (m, HfOk)
                      end in
    match res with HfOk => restore_rw m' src t | _ => (m', res) end
  end.

(** host_fw_restore_read_write_data_multiple_fw, 973-991. *)
Fixpoint restore_rw_multiple (m : image) (src : option image) (ws : list (list (region * on_failure))) : image * hf_result :=
  match ws with
  | [] => (m, HfOk)
  | w :: t => match restore_rw m src w with (m', HfOk) => restore_rw_multiple m' src t | r => r end
  end.
End HostFw.

(** The SPI filter seen through its interface (spi_filter_interface.h 334-356): numbered read/write
    regions, each [start, end); an end of 0 stands for the end of the address space. *)
Definition spi_filter := N -> option (N * N).

Section Filter.
(** Which operations the filter accepts. *)
Variable clear_ok : bool.
Variable set_ok : N -> bool.

Definition set_region (f : spi_filter) (id s e : N) : spi_filter * hf_result :=
  if set_ok id then ((fun x => if x =? id then Some (s, e) else f x), HfOk) else (f, HfFilter).

(** host_fw_config_spi_filter_read_write_regions, 1016-1022; [i] is the loop index, the region number
    is a uint8_t. *)
Fixpoint filter_each (f : spi_filter) (i : N) (rs : list region) : spi_filter * hf_result :=
  match rs with
  | [] => (f, HfOk)
  | r :: t =>
    match set_region f ((i + 1) mod 256) (start r) (u32 (start r + len r)) with
    | (f', HfOk) => filter_each f' (i + 1) t
    | (f', e) => (f', e)
    end
  end.

(** host_fw_config_spi_filter_read_write_regions, 1001-1025. *)
Definition config_filter (f : spi_filter) (rs : list region) : spi_filter * hf_result :=
  if clear_ok then filter_each (fun _ => None) 0 rs else (f, HfFilter).

(** host_fw_config_spi_filter_read_write_regions_multiple_fw, 1058-1089. *)
Fixpoint filter_merge (fuel : nat) (f : spi_filter) (id : N) (prev next : option region) (last total : N)
  (rss : list (list region)) : spi_filter * option hf_result :=
  match fuel with
  | O => (f, None)
  | S k =>
    let prev := match prev with None => next | _ => prev end in
    let next := find_next_in last rss in
    match prev, next with
    | Some p, Some n =>
      if start n =? last then filter_merge k f id prev next (u32 (last + len n)) (u32 (total + len n)) rss
      else
        match set_region f ((id + 1) mod 256) (start p) (u32 (start p + total)) with
        | (f', HfOk) => filter_merge k f' ((id + 1) mod 256) None next (past n) (len n) rss
        | (f', e) => (f', Some e)
        end
    | Some p, None =>
      match set_region f ((id + 1) mod 256) (start p) (u32 (start p + total)) with
      | (f', HfOk) => (f', Some HfOk)
      | (f', e) => (f', Some e)
      end
    | None, Some n => filter_merge k f id None next (past n) (len n) rss
    | None, None => (f, Some HfOk)
    end
  end.

(** host_fw_config_spi_filter_read_write_regions_multiple_fw, 1038-1092. *)
Definition config_filter_multiple (f : spi_filter) (rss : list (list region)) : spi_filter * option hf_result :=
  if clear_ok then filter_merge (S (length (concat rss))) (fun _ => None) 0 None None 0 0 rss
  else (f, Some HfFilter).
End Filter.

(** Firmware versions, struct pfm_firmware_version: the identifier without its terminator, and where
    it is on flash. *)
Record fw_version := mkV { v_id : list N; v_addr : N }.

(** strncmp (a, b, n) == 0; a C string is followed by a zero byte. *)
Fixpoint strncmp (n : nat) (a b : list N) : bool :=
  match n with
  | O => true
  | S k =>
    let x := hd 0 a in let y := hd 0 b in
    if x =? y then if x =? 0 then true else strncmp k (tl a) (tl b) else false
  end.

(** [VOverflow]: a read past the end of the allocated buffer. *)
Inductive ver_result := VFound (v : fw_version) | VUnsupported | VReadErr | VOverflow.

Section Version.
Variable rfail : N -> bool.

(** host_fw_find_longest_version_id, 20-36. *)
Definition longest (vs : list fw_version) : nat :=
  fold_left (fun max v => if (max <? length (v_id v))%nat then length (v_id v) else max) vs 0%nat.

(** flash->read of [n] bytes at [a] to position [off] of the buffer. *)
Definition read_into (m : image) (a : N) (n : nat) (buf : list N) (off : nat) (k : list N -> ver_result) : ver_result :=
  if (length buf <? off + n)%nat then VOverflow
  else if rfail a then VReadErr else k (splice buf off (img_read m a n)).

(** The loop of host_fw_determine_offset_version, 95-157: the versions are visited from the last to
    the first, [vs] is the list in that order; [prev] is the address of the version visited before,
    [buf] and [vl] are fw_version and version_len. *)
Fixpoint determine (m : image) (offset : N) (vs : list fw_version) (prev : option N) (buf : list N) (vl : nat)
  : ver_result :=
  match vs with
  | [] => VUnsupported
  | v :: t =>
    let cl := length (v_id v) in
    let fresh := match prev with None => true | Some a => negb (v_addr v =? a) end in
    if fresh then
      read_into m (u32 (v_addr v + offset)) cl buf 0 (fun buf' =>
        if strncmp cl (v_id v) buf' then VFound v else determine m offset t (Some (v_addr v)) buf' cl)
    else if (cl <? vl)%nat then
      if strncmp cl (v_id v) buf then VFound v else determine m offset t (Some (v_addr v)) buf vl
    else if strncmp vl (v_id v) buf then
      if (cl =? vl)%nat then VFound v
      else
        read_into m (u32 (v_addr v + offset + N.of_nat vl)) (cl - vl) buf vl (fun buf' =>
          if strncmp (cl - vl) (skipn vl (v_id v)) (skipn vl buf') then VFound v
          else determine m offset t (Some (v_addr v)) buf' cl)
    else determine m offset t (Some (v_addr v)) buf vl
  end.

(** host_fw_determine_offset_version, 69-167. [heap] is what the allocated buffer, of the length of
    the longest identifier, holds. *)
Definition determine_version (m : image) (offset : N) (allowed : list fw_version) (heap : nat -> N) : ver_result :=
  determine m offset (rev allowed) None (map heap (seq 0 (longest allowed))) 0.
End Version.
