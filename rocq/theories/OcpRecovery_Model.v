(** Model of core/recovery/ocp_recovery_device.c, the device side of the OCP recovery protocol, and of
    core/recovery/ocp_recovery_smbus.c, its transport over SMBus.

    The device exposes a list of memory regions ("component memory spaces"): plain memory, a
    variable-length region behind an interface (a log), or a region of a flash device.  Any memory
    access outside the object it belongs to has the outcome [Wild].

    Simplifications: all flash regions are on one flash device with one sector size; the memory regions
    do not overlap and each flash region has its own erase pointer; the structures are in
    little-endian order (they are copied to the wire as they are in memory); the functions are called
    by one task, as the bus driver does; NULL arguments are left out; debug log entries are left out;
    size_t is unbounded (uint32_t wraps are modelled).  Return codes of the hardware and flash
    interfaces are inputs of the step that calls them. *)
From Coq Require Import List NArith ZArith Bool Arith.
From Verif Require Import Base Flash_Base FlashUpdater_Model Crc8_Model.
Import ListNotations.

Inductive res (A : Type) := Ret (x : A) | Wild.
Arguments Ret {A} x.
Arguments Wild {A}.
Definition bind {A B} (r : res A) (f : A -> res B) : res B :=
  match r with Ret x => f x | Wild => Wild end.
Notation "x <- e ; f" := (bind e (fun x => f)) (at level 61, e at next level, right associativity).
Notation "' p <- e ; f" := (bind e (fun p => f)) (at level 61, p pattern, e at next level, right associativity).

(** ocp_recovery_device.h:276-297, the return values the code compares; [Other] is any other code. *)
Inductive dstatus :=
  | Ok | Nack | NoActive | RoCommand | Unsupported | Incomplete | NotCode | UnsupportedCms | RoCms
  | UnsupportedParam | Extra | Other.

(** What is behind a region: ocp_recovery_device.h:68-73 and 84, the union and the flag cms_flash. *)
Inductive backing := Ram | Log | Nor (base : N).

(** ocp_recovery_device.h:68-85; [r_len] = 0 stands for "variable". *)
Record region := { r_type : N; r_len : N; r_back : backing }.

(** ocp_recovery.h:369-384 and ocp_recovery_device.h:117-193; [cms = None] is the NULL list. *)
Record config := {
  cms : option (list region);
  has_reset : bool; has_mgmt : bool; has_forced : bool; has_activate : bool;
  flash_size : N; sector : N }.

Definition regions (c : config) : list region := match cms c with Some l => l | None => [] end.

(** Contents behind the regions: the memory of each region, the flash device and the erase pointer
    of each flash region. *)
Record store := { mem : nat -> list N; flash : image; erase_at : nat -> N }.

(** ocp_recovery_device.h:198-206; [reset] and [rctrl] are the bytes of the two structures. *)
Record dev := {
  active : N; proto : N; rstat : N; istat : N; reset : list N; rctrl : list N;
  ic_cms : N; ic_res : N; ic_off : N; st : store }.

Definition set_active x d := {| active := x; proto := proto d; rstat := rstat d; istat := istat d;
  reset := reset d; rctrl := rctrl d; ic_cms := ic_cms d; ic_res := ic_res d; ic_off := ic_off d; st := st d |}.
Definition set_proto x d := {| active := active d; proto := x; rstat := rstat d; istat := istat d;
  reset := reset d; rctrl := rctrl d; ic_cms := ic_cms d; ic_res := ic_res d; ic_off := ic_off d; st := st d |}.
Definition set_rstat x d := {| active := active d; proto := proto d; rstat := x; istat := istat d;
  reset := reset d; rctrl := rctrl d; ic_cms := ic_cms d; ic_res := ic_res d; ic_off := ic_off d; st := st d |}.
Definition set_istat x d := {| active := active d; proto := proto d; rstat := rstat d; istat := x;
  reset := reset d; rctrl := rctrl d; ic_cms := ic_cms d; ic_res := ic_res d; ic_off := ic_off d; st := st d |}.
Definition set_reset x d := {| active := active d; proto := proto d; rstat := rstat d; istat := istat d;
  reset := x; rctrl := rctrl d; ic_cms := ic_cms d; ic_res := ic_res d; ic_off := ic_off d; st := st d |}.
Definition set_rctrl x d := {| active := active d; proto := proto d; rstat := rstat d; istat := istat d;
  reset := reset d; rctrl := x; ic_cms := ic_cms d; ic_res := ic_res d; ic_off := ic_off d; st := st d |}.
Definition set_ictrl c r o d := {| active := active d; proto := proto d; rstat := rstat d; istat := istat d;
  reset := reset d; rctrl := rctrl d; ic_cms := c; ic_res := r; ic_off := o; st := st d |}.
Definition set_off o d := set_ictrl (ic_cms d) (ic_res d) o d.
Definition set_st s d := {| active := active d; proto := proto d; rstat := rstat d; istat := istat d;
  reset := reset d; rctrl := rctrl d; ic_cms := ic_cms d; ic_res := ic_res d; ic_off := ic_off d; st := s |}.

Definition set_mem i l s := {| mem := fun j => if Nat.eqb j i then l else mem s j; flash := flash s; erase_at := erase_at s |}.
Definition set_flash m s := {| mem := mem s; flash := m; erase_at := erase_at s |}.
Definition set_erase i a s := {| mem := mem s; flash := flash s;
  erase_at := fun j => if Nat.eqb j i then a else erase_at s j |}.

(** Calls of the hardware interface (ocp_recovery_device.h:152-190). *)
Inductive event := EvReset (forced : bool) | EvMgmt (forced : bool) | EvActivate (i : nat).

(** What a flash device does with the k-th operation of a write command: whether the sector is
    erased and whether that is reported as success; whether the sector size can be read; how many
    bytes are programmed and whether the call reports success. *)
Record faults := {
  f_erase : nat -> bool * bool; f_size : nat -> bool; f_write : nat -> nat * bool;
  f_activate : dstatus; f_auth : bool }.

Local Open Scope N_scope.

Definition CMD_PROT_CAP := 0x22. Definition CMD_DEVICE_ID := 0x23. Definition CMD_DEVICE_STATUS := 0x24.
Definition CMD_RESET := 0x25. Definition CMD_RECOVERY_CTRL := 0x26. Definition CMD_RECOVERY_STATUS := 0x27.
Definition CMD_INDIRECT_CTRL := 0x29. Definition CMD_INDIRECT_STATUS := 0x2a. Definition CMD_INDIRECT_DATA := 0x2b.
Definition CMD_VENDOR := 0x2c.
Definition REGION_CODE := 0. Definition REGION_RW := 5. Definition REGION_UNSUPPORTED := 7.

(** Rounding up to four bytes: (x + 3) & ~0x3ull *)
Definition up4 (x : N) : N := (x + 3) / 4 * 4.

(** ocp_recovery_device.c:83-115, the loop of ocp_recovery_device_init_state over the regions.  For a
    flash region the code looks at the FIRST region (device->cms->) for the flash device, the base
    address and the length. *)
Inductive istatus := IOk | IAlign | IRwLog | IFlash.
Fixpoint init_loop (c : config) (first : option region) (i : nat) (l : list region) (s : store) : res (istatus * store) :=
  match l with
  | [] => Ret (IOk, s)
  | r :: t =>
    let base_type := N.ldiff (r_type r) 8 in
    let writable := (base_type =? REGION_CODE) || (base_type =? REGION_RW) in
    if writable && negb (r_len r mod 4 =? 0) then Ret (IAlign, s)
    else if writable && (r_len r =? 0) then Ret (IRwLog, s)
    else match r_back r with
    | Nor _ =>
      match first with
      | Some f =>
        match r_back f with
        | Nor base0 =>
          if flash_size c <? base0 + r_len f then Ret (IFlash, s)
          else init_loop c first (S i) t (set_erase i base0 s)
        | _ => Wild                              (* a data pointer used as a flash interface *)
        end
      | None => Wild
      end
    | _ => init_loop c first (S i) t s
    end
  end.

(** ocp_recovery_device.c:66-118 *)
Definition dev_init (c : config) (s : store) : res (istatus * dev) :=
  let d := {| active := 0; proto := 0;
    rstat := (if negb (has_activate c) then 0 else match cms c with None => 0 | Some _ => 1 end);
    istat := 0; reset := [0; 0; 0]; rctrl := [0; 0; 0];
    ic_cms := 0; ic_res := 0; ic_off := 0; st := s |} in
  '(r, s') <- init_loop c (hd_error (regions c)) 0 (regions c) s; Ret (r, set_st s' d).

(** ocp_recovery_device.c:144-161 *)
Definition start_new_command (d : dev) (code : N) : dstatus * dev :=
  if (code <? CMD_PROT_CAP) || (CMD_VENDOR <? code) then (Nack, set_proto (N.lor (proto d) 1) d)
  else (Ok, set_active code d).

(** ocp_recovery_device.c:172-216 *)
Definition write_reset (c : config) (d : dev) (data : list N) : dstatus * dev * list event :=
  let ctrl := nth 0 data 0 in let forced := nth 1 data 0 in let intf := nth 2 data 0 in
  if negb (intf =? 0) then (UnsupportedParam, d, [])
  else if negb (has_forced c) && (forced =? 15) then (UnsupportedParam, d, [])
  else
    let '(status, ev) :=
      if ctrl =? 1 then if has_reset c then (Ok, [EvReset (forced =? 15)]) else (UnsupportedParam, [])
      else if ctrl =? 2 then if has_mgmt c then (Ok, [EvMgmt (forced =? 15)]) else (UnsupportedParam, [])
      else (Ok, []) in
    match status with
    | Ok => (Ok, set_reset [0; forced; intf] d, ev)
    | _ => (status, d, ev)
    end.

(** ocp_recovery_device.c:226-276.  [f_activate] is the value returned by the hardware interface,
    [f_auth] the content of the (uninitialised) flag when it returns. *)
Definition write_recovery_ctrl (c : config) (f : faults) (d : dev) (data : list N) : dstatus * dev * list event :=
  let i := nth 0 data 0 in let img := nth 1 data 0 in let act := nth 2 data 0 in
  match nth_error (regions c) (N.to_nat i) with
  | None => (UnsupportedCms, d, [])
  | Some r =>
    if img =? 2 then (UnsupportedParam, d, [])
    else if negb (has_activate c) && ((img =? 1) || (act =? 15)) then (UnsupportedParam, d, [])
    else
      let '(status, d, ev) :=
        if img =? 1 then
          if negb (r_type r =? REGION_CODE) then (NotCode, set_rstat 15 d, [])
          else if act =? 15 then
            (f_activate f,
             set_rstat (match f_activate f with Ok => 3 | _ => if f_auth f then 13 else 12 end) d,
             [EvActivate (N.to_nat i)])
          else (Ok, d, [])
        else (Ok, d, []) in
      (status, set_rctrl [i; img; 0] d, ev)
  end.

(** ocp_recovery_device.c:286-305; the sum is computed in uint32_t. *)
Definition write_indirect_ctrl (c : config) (d : dev) (data : list N) : dstatus * dev :=
  match cms c with
  | None => (Unsupported, d)
  | Some _ =>
    (Ok, set_ictrl (nth 0 data 0) (nth 1 data 0)
      (w32 (le_value (firstn 4 (skipn 2 data)) + 3) / 4 * 4) d)
  end.

(** flash->write: [k] of the bytes are programmed. *)
Definition program (m : image) (a : N) (data : list N) (k : nat) : image := nor_write m a (firstn k data).

(** ocp_recovery_device.c:352-379, writing one piece to a flash region; [k] counts the pieces. *)
Definition write_flash (c : config) (f : faults) (k i : nat) (base off : N) (data : list N) (s : store)
    : dstatus * store :=
  let wl := N.of_nat (length data) in
  let s := if off =? 0 then set_erase i base s else s in
  let '(status, s) :=
    if erase_at s i <? base + off + wl then
      let '(erased, ok) := f_erase f k in
      let a := erase_at s i / sector c * sector c in
      let s := if erased then set_flash (nor_erase (flash s) a (sector c)) s else s in
      if negb ok then (Other, s)
      else if negb (f_size f k) then (Other, s)
      else (Ok, set_erase i (w32 (erase_at s i + sector c)) s)
    else (Ok, s) in
  match status with
  | Ok => let '(n, ok) := f_write f k in
          ((if ok then Ok else Other), set_flash (program (flash s) (base + off) data n) s)
  | _ => (status, s)
  end.

(** ocp_recovery_device.c:344-389, the loop of ocp_recovery_device_write_indirect_data. *)
Fixpoint write_loop (fuel : nat) (c : config) (f : faults) (k i : nat) (r : region) (data : list N) (d : dev)
    : res (dstatus * dev) :=
  match fuel with
  | O => Wild
  | S fuel =>
    let d := if r_len r <=? ic_off d then set_istat (N.lor (istat d) 1) (set_off 0 d) else d in
    let off := ic_off d in
    let wl := Nat.min (length data) (N.to_nat (r_len r - off)) in
    let piece := firstn wl data in
    let next (d : dev) :=
      let d := set_off (w32 (off + up4 (N.of_nat wl))) d in
      match skipn wl data with
      | [] => Ret (Ok, d)
      | rest => write_loop fuel c f (S k) i r rest d
      end in
    match r_back r with
    | Nor base =>
      let '(status, s) := write_flash c f k i base off piece (st d) in
      match status with
      | Ok => next (set_st s d)
      | _ => Ret (status, set_st s d)
      end
    | Ram =>
      if (N.to_nat off + wl <=? length (mem (st d) i))%nat then
        next (set_st (set_mem i (splice (mem (st d) i) (N.to_nat off) piece) (st d)) d)
      else Wild
    | Log => Wild                           (* an interface used as a data pointer *)
    end
  end.

(** ocp_recovery_device.c:316-392 *)
Definition write_indirect_data (c : config) (f : faults) (d : dev) (data : list N) : res (dstatus * dev) :=
  match cms c with
  | None => Ret (Unsupported, d)
  | Some l =>
    match nth_error l (N.to_nat (ic_cms d)) with
    | None => Ret (UnsupportedCms, d)
    | Some r =>
      if negb (r_type r =? REGION_CODE) && negb (r_type r =? REGION_RW) then
        Ret (RoCms, set_istat (N.lor (istat d) 2) d)
      else write_loop (S (length data)) c f 0 (N.to_nat (ic_cms d)) r data d
    end
  end.

(** ocp_recovery_device.c:422-453: the structures have a fixed size. *)
Definition sized {A} (want : nat) (data : list N) (d : dev) (k : dstatus * dev * list A) : dstatus * dev * list A :=
  if Nat.eqb (length data) want then k
  else if (want <? length data)%nat then (Extra, d, []) else (Incomplete, d, []).

(** ocp_recovery_device.c:467-487, the protocol status after a write. *)
Definition note_write (s : dstatus) (d : dev) : dev :=
  match s with
  | Unsupported | RoCommand => set_proto 1 d
  | UnsupportedParam | UnsupportedCms => set_proto 2 d
  | Incomplete | Extra => set_proto 3 d
  | _ => d
  end.

(** ocp_recovery_device.c:408-492, ocp_recovery_device_write_request. *)
Definition write_request (c : config) (f : faults) (d : dev) (data : list N) : res (dstatus * dev * list event) :=
  '(s, d, ev) <-
    (let a := active d in
     if a =? 0 then Ret (NoActive, d, [])
     else if a =? CMD_RESET then Ret (sized 3 data d (write_reset c d data))
     else if a =? CMD_RECOVERY_CTRL then Ret (sized 3 data d (write_recovery_ctrl c f d data))
     else if a =? CMD_INDIRECT_CTRL then
       Ret (sized 6 data d (let '(s, d) := write_indirect_ctrl c d data in (s, d, [])))
     else if a =? CMD_INDIRECT_DATA then
       '(s, d) <- write_indirect_data c f d data; Ret (s, d, [])
     else if a =? CMD_VENDOR then Ret (Unsupported, d, [])
     else Ret (RoCommand, d, []));
  Ret (s, set_active 0 (note_write s d), ev).

(** What the hardware, the variable regions and the flash answer during a read. *)
Record answers := {
  a_id : option (list N);                          (* get_device_id *)
  a_status : N; a_reason : N; a_vendor : list N;   (* get_device_status *)
  a_size : option N;                               (* get_size of a variable region *)
  a_data : N -> option (list N);                   (* get_data (offset, at most 252 bytes) *)
  a_flash : bool }.                                (* flash->read *)

Definition bit (b : bool) (v : N) : N := if b then v else 0.

(** ocp_recovery_device.c:502-537 *)
Definition read_prot_cap (c : config) : list N :=
  let caps := 1 + 16 + bit (has_reset c) 8 + bit (has_mgmt c) 4 + bit (has_forced c) 2 +
    match cms c with Some _ => 32 + bit (has_activate c) 128 | None => 0 end in
  [79; 67; 80; 32; 82; 69; 67; 86; 1; 0] ++ le16 caps ++ [N.of_nat (length (regions c)) mod 256; 16; 0].

(** ocp_recovery_device.c:547-566 *)
Definition read_device_status (e : answers) (d : dev) : list N * dev :=
  ([a_status e mod 256; proto d] ++ le16 (a_reason e) ++ [0; 0; 5] ++ firstn 5 (a_vendor e ++ repeat 0 5), set_proto 0 d).

(** The result of a read: the bytes placed in the payload of the response, the number of bytes that
    are the response, and the new state; or an error code. *)
Inductive rresult := Answer (bytes : list N) (n : nat) | Fail (s : dstatus).

(** ocp_recovery_device.c:576-615 *)
Definition read_indirect_status (c : config) (e : answers) (d : dev) : res (rresult * dev) :=
  match cms c with
  | None => Ret (Fail Unsupported, d)
  | Some l =>
    let finish (t size : N) := Ret (Answer ([istat d; t mod 256] ++ le32 size) 6, set_istat 0 d) in
    match nth_error l (N.to_nat (ic_cms d)) with
    | Some r =>
      if r_len r =? 0 then
        match r_back r with
        | Log =>
          match a_size e with
          | None => Ret (Fail Other, d)
          | Some n => finish (r_type r) (w32 (w32 n + 3) / 4)
          end
        | _ => Wild
        end
      else finish (r_type r) (w32 (w32 (r_len r) + 3) / 4)
    | None => finish REGION_UNSUPPORTED 0
    end
  end.

(** ocp_recovery_device.c:625-695; 252 bytes at most; the answer buffer is
    cleared first (only the cleared bytes of a successful answer are modelled). *)
Definition read_indirect_data (c : config) (e : answers) (d : dev) : res (rresult * dev) :=
  match cms c with
  | None => Ret (Fail Unsupported, d)
  | Some l =>
    match nth_error l (N.to_nat (ic_cms d)) with
    | None => Ret (Fail UnsupportedCms, d)
    | Some r =>
      let i := N.to_nat (ic_cms d) in
      let go (size : N) :=
        let d := if size <=? ic_off d then set_istat (N.lor (istat d) 1) (set_off 0 d) else d in
        let off := ic_off d in
        let finish (data : list N) :=
          let n := up4 (N.of_nat (length data)) in
          if (length data <=? 255)%nat then
            Ret (Answer (data ++ repeat 0 (255 - length data)) (N.to_nat n), set_off (w32 (off + n)) d)
          else Wild in
        if r_len r =? 0 then
          match a_data e off with
          | None => Ret (Fail Other, d)
          | Some data => finish data
          end
        else
          let n := Nat.min (N.to_nat (r_len r - off)) 252 in
          match r_back r with
          | Nor base =>
            if a_flash e then finish (img_read (flash (st d)) (base + off) n) else Ret (Fail Other, d)
          | Ram =>
            if (N.to_nat off + n <=? length (mem (st d) i))%nat
            then finish (window (N.to_nat off) n (mem (st d) i)) else Wild
          | Log => Wild
          end in
      if r_len r =? 0 then
        match r_back r with
        | Log => match a_size e with None => Ret (Fail Other, d) | Some n => go n end
        | _ => Wild
        end
      else go (r_len r)
    end
  end.

(** ocp_recovery_device.c:775-788, the protocol status after a read. *)
Definition note_read (r : rresult) (d : dev) : dev :=
  match r with
  | Fail Unsupported => set_proto 1 d
  | Fail UnsupportedCms => set_proto 2 d
  | _ => d
  end.

(** ocp_recovery_device.c:711-793, ocp_recovery_device_read_request. *)
Definition read_request (c : config) (e : answers) (d : dev) : res (rresult * dev) :=
  let all (l : list N) (d : dev) : res (rresult * dev) := Ret (Answer l (length l), d) in
  let a := active d in
  if a =? 0 then Ret (Fail NoActive, d)
  else
    '(r, d) <-
      (if a =? CMD_PROT_CAP then all (read_prot_cap c) d
       else if a =? CMD_DEVICE_ID then
         match a_id e with Some l => all l d | None => Ret (Fail Other, d) end
       else if a =? CMD_DEVICE_STATUS then let '(l, d) := read_device_status e d in all l d
       else if a =? CMD_RESET then all (reset d) d
       else if a =? CMD_RECOVERY_CTRL then all (rctrl d) d
       else if a =? CMD_RECOVERY_STATUS then all [rstat d; 0] d
       else if a =? CMD_INDIRECT_CTRL then
         match cms c with
         | Some _ => all ([ic_cms d; ic_res d] ++ le32 (ic_off d)) d
         | None => Ret (Fail Unsupported, d)
         end
       else if a =? CMD_INDIRECT_STATUS then read_indirect_status c e d
       else if a =? CMD_INDIRECT_DATA then read_indirect_data c e d
       else Ret (Fail Unsupported, d));
    Ret (r, set_active 0 (note_read r d)).

(** ocp_recovery_device.c:801-835 *)
Definition checksum_failure (d : dev) : dev := set_proto 4 (set_active 0 d).
Definition write_overflow (d : dev) : dev := set_proto 3 (set_active 0 d).
Definition write_incomplete (d : dev) : dev := write_overflow d.

(** ocp_recovery_smbus.h:34-38; [rx] is -1 before the command code, -2 after an invalid one and -3
    after an overflow. *)
Record bus := { buf : list N; rx : Z; crc : N; dv : dev }.

(** ocp_recovery_smbus.c:63-72 *)
Definition bus_init (d : dev) : bus := {| buf := repeat 0 257; rx := 0%Z; crc := 0; dv := d |}.

Definition rd (b : list N) (i : nat) : res N := match nth_error b i with Some x => Ret x | None => Wild end.
Definition rds (b : list N) (i n : nat) : res (list N) :=
  if (i + n <=? length b)%nat then Ret (window i n b) else Wild.
Definition wrs (b : list N) (i : nat) (l : list N) : res (list N) :=
  if (i + length l <=? length b)%nat then Ret (splice b i l) else Wild.

(** ocp_recovery_smbus.c:92-101 *)
Definition bus_start (a : N) (s : bus) : bus :=
  {| buf := repeat 0 257; rx := (-1)%Z; crc := crc8_init (a * 2 mod 256); dv := dv s |}.

(** ocp_recovery_smbus.c:109-162.  The length given to the checksum is a uint8_t ([crc8_update]). *)
Definition bus_stop (c : config) (f : faults) (s : bus) : res (bus * list event) :=
  let done (b : list N) (cr : N) (d : dev) (ev : list event) :=
    Ret ({| buf := b; rx := (-1)%Z; crc := cr; dv := d |}, ev) in
  if (0 <? rx s)%Z then
    n <- rd (buf s) 0;
    if (Z.of_N n <? rx s)%Z then
      '(cr, ok) <-
        (if (Z.of_N n + 2 <=? rx s)%Z then
           l <- rds (buf s) 0 (N.to_nat n + 1);
           p <- rd (buf s) (N.to_nat n + 1);
           let cr := crc8_update (crc s) l (N.to_nat n + 1) in
           Ret (cr, cr =? p)
         else Ret (crc s, true));
      if ok then
        payload <- rds (buf s) 1 (N.to_nat n);
        '(r, d, ev) <- write_request c f (dv s) payload;
        done (buf s) cr d ev
      else done (buf s) cr (checksum_failure (dv s)) []
    else done (buf s) (crc s) (write_incomplete (dv s)) []
  else done (buf s) (crc s) (dv s) [].

(** ocp_recovery_smbus.c:174-217; the boolean tells whether the byte is acknowledged. *)
Definition bus_byte (x : N) (s : bus) : res (bus * bool) :=
  if (rx s <=? -2)%Z then Ret (s, false)
  else if (rx s =? -1)%Z then
    let cr := crc8_update (crc s) [x] 1 in
    match start_new_command (dv s) x with
    | (Ok, d) => Ret ({| buf := buf s; rx := 0%Z; crc := cr; dv := d |}, true)
    | (_, d) => Ret ({| buf := buf s; rx := (-2)%Z; crc := cr; dv := d |}, false)
    end
  else if (rx s <? 257)%Z then
    b <- wrs (buf s) (Z.to_nat (rx s)) [x];
    Ret ({| buf := b; rx := (rx s + 1)%Z; crc := crc s; dv := dv s |}, true)
  else Ret ({| buf := buf s; rx := (-3)%Z; crc := crc s; dv := write_overflow (dv s) |}, false).

(** ocp_recovery_smbus.c:231-263.  The result is the buffer handed to the bus driver. *)
Definition bus_transmit (c : config) (e : answers) (a : N) (s : bus) : res (bus * list N) :=
  let cr := crc8_update (crc s) [N.lor (a * 2) 1 mod 256] 1 in
  '(r, d) <- read_request c e (dv s);
  '(b, n) <-
    match r with
    | Answer bytes n =>
      b <- wrs (buf s) 1 bytes; b <- wrs b 0 [N.of_nat n mod 256]; Ret (b, n)
    | Fail _ => b <- wrs (buf s) 0 [0]; Ret (b, 0%nat)
    end;
  l <- rds b 0 (n + 1);
  b <- wrs b (n + 1) [crc8_update cr l (n + 1)];
  Ret ({| buf := b; rx := rx s; crc := cr; dv := d |}, b).

(** What the bus driver does. *)
Inductive op :=
  | Start (a : N) | Byte (x : N) | Stop (f : faults) | Transmit (a : N) (e : answers).
Inductive output := Quiet | Ack (b : bool) | Events (l : list event) | Sent (l : list N).

Definition step (c : config) (s : bus) (o : op) : res (bus * output) :=
  match o with
  | Start a => Ret (bus_start a s, Quiet)
  | Byte x => '(s, b) <- bus_byte x s; Ret (s, Ack b)
  | Stop f => '(s, ev) <- bus_stop c f s; Ret (s, Events ev)
  | Transmit a e => '(s, l) <- bus_transmit c e a s; Ret (s, Sent l)
  end.

Fixpoint run (c : config) (s : bus) (l : list op) : res (bus * list output) :=
  match l with
  | [] => Ret (s, [])
  | o :: t => '(s, x) <- step c s o; '(s, xs) <- run c s t; Ret (s, x :: xs)
  end.
