(** Model of core/flash/spi_flash.c, the driver of a SPI NOR flash device: configuration from the
    device properties, reading, programming, erasing and switching the address mode.

    The device on the other side of the bus is modelled too (see [exec]): it programs within a page of
    256 bytes and wraps at its end, needs a write enable before each program or erase command,
    ignores everything but the status registers while it is busy, and takes the number of address bytes its
    mode and the opcode ask for.  A transfer with another number of address bytes has the outcome [Garbled].

    Simplifications: the SPI master supports all address modes; the properties come from the SFDP tables as
    they are (spi_flash_sfdp.c is not modelled); dummy and mode bytes and dual/quad transfers carry the same
    address and data and are left out; the read, program and erase opcodes are represented by whether they
    are the explicit 4-byte variants; device reset, power down, block protection and quad enable are left
    out; a program or erase command takes effect at once and then keeps the device busy for an arbitrary,
    finite number of status reads; the lock is held during each function, so each is one step. *)
From Coq Require Import List NArith Bool Arith.
From Verif Require Import Base Flash_Base FlashUpdater_Model.
Import ListNotations.

Inductive res (A : Type) := Ret (x : A) | Garbled.
Arguments Ret {A} x.
Arguments Garbled {A}.
Definition bind {A B} (r : res A) (f : A -> res B) : res B :=
  match r with Ret x => f x | Garbled => Garbled end.
Notation "' p <- e ; f" := (bind e (fun p => f)) (at level 61, p pattern, e at next level, right associativity).

Local Open Scope N_scope.

(** spi_flash_sfdp.h:95-99, how a device changes between 3- and 4-byte addresses. *)
Inductive switch := Unsupported | Command | CommandWren | Fixed | InstructionSet.

(** A device: address sizes announced, mode switch, explicit 4-byte commands present, size, and whether
    the busy state is in the flag status register. *)
Record part := { k3 : bool; k4 : bool; sw : switch; has4 : bool; p_size : N; p_flag : bool }.

(** The device has both address sizes in the end (spi_flash.c:1137-1150). *)
Definition eff3 (p : part) : bool := k3 p && match sw p with Fixed => false | _ => true end.
Definition eff4 (p : part) : bool := k4 p && match sw p with Unsupported => false | _ => true end.
Definition both (p : part) : bool := eff3 p && eff4 p.
Definition switchable (p : part) : bool := both p && match sw p with InstructionSet => false | _ => true end.

(** ** The device *)

(** [busy] counts the status reads until the device is ready; [ext] is 4-byte address mode. *)
Record chip := { cells : image; wel : bool; busy : nat; ext : bool }.

(** The commands (flash_common.h); the flag says "explicit 4-byte variant". *)
Inductive command :=
  | Rdsr | RdFlag | Wren | En4b | Ex4b | ChipErase
  | Read (native : bool) | Program (native : bool) | Sector (native : bool) | Block (native : bool).

(** flash_master.h:14-24 *)
Record xfer := { x_cmd : command; x_addr : N; x_four : bool; x_data : list N; x_len : nat }.

(** What happens to a transfer: whether it is reported as done, whether the device executes it
    nevertheless, how much of its data arrives then, how long the device is busy after it and the
    other bits of a status register. *)
Record fate := { e_ok : bool; e_done : bool; e_cut : nat; e_delay : nat; e_bits : N }.

(** The address the device takes from the transfer. *)
Definition decode (p : part) (c : chip) (native four : bool) (a : N) : option N :=
  if native && negb (has4 p) then None
  else if eqb (native || ext c) four then Some (if four then a mod 2 ^ 32 else a mod 2 ^ 24) else None.

(** Programming a page: data beyond the end of the page go to its start. *)
Definition page_program (m : image) (a : N) (data : list N) : image := fun x =>
  if x / 256 =? a / 256 then
    let k := (x + 256 - a mod 256) mod 256 in
    if k <? N.of_nat (length data) then N.land (m x) (nth (N.to_nat k) data 0) else m x
  else m x.

Definition with_cells (m : image) (delay : nat) (c : chip) : chip :=
  {| cells := m; wel := false; busy := delay; ext := ext c |}.

Definition exec (p : part) (e : fate) (x : xfer) (c : chip) : res (list N * chip) :=
  let ticked := {| cells := cells c; wel := wel c; busy := Nat.pred (busy c); ext := ext c |} in
  let idle := Nat.eqb (busy c) 0 in
  let at_addr (native : bool) (f : N -> list N * chip) : res (list N * chip) :=
    match decode p c native (x_four x) (x_addr x) with Some a => Ret (f a) | None => Garbled end in
  match x_cmd x with
  | Rdsr => Ret ([e_bits e mod 128 * 2 + (if idle then 0 else 1)], ticked)
  | RdFlag => Ret ([e_bits e mod 128 + (if idle then 128 else 0)], ticked)
  | _ =>
    if negb idle then Ret ([], c)
    else match x_cmd x with
    | Wren => Ret ([], {| cells := cells c; wel := true; busy := busy c; ext := ext c |})
    | En4b | Ex4b =>
      if switchable p && (negb match sw p with CommandWren => true | _ => false end || wel c)
      then Ret ([], {| cells := cells c; wel := wel c; busy := busy c;
                       ext := match x_cmd x with En4b => true | _ => false end |})
      else Ret ([], c)
    | ChipErase => Ret ([], if wel c then with_cells (nor_erase (cells c) 0 (p_size p)) (e_delay e) c else c)
    | Read n => at_addr n (fun a =>
        (map (fun k => cells c ((a + N.of_nat k) mod (if x_four x then 2 ^ 32 else 2 ^ 24))) (seq 0 (x_len x)), c))
    | Program n => if wel c then at_addr n (fun a => ([], with_cells (page_program (cells c) a (x_data x)) (e_delay e) c))
                   else Ret ([], c)
    | Sector n => if wel c then at_addr n (fun a => ([], with_cells (nor_erase (cells c) (a / 4096 * 4096) 4096) (e_delay e) c))
                  else Ret ([], c)
    | Block n => if wel c then at_addr n (fun a => ([], with_cells (nor_erase (cells c) (a / 65536 * 65536) 65536) (e_delay e) c))
                 else Ret ([], c)
    | _ => Ret ([], c)
    end
  end.

(** ** The driver *)

(** spi_flash.h:50-100, the fields of the state that are used here: [native] stands for the opcodes
    and flags of spi_flash.c:100-115 and 137-165. *)
Record drv := { size : N; cap3 : bool; cap4 : bool; native : bool; how : switch; use_flag : bool; mode4 : bool }.

(** spi_flash.c:750-793 *)
Definition init_state : drv :=
  {| size := 0; cap3 := true; cap4 := true; native := false; how := Unsupported; use_flag := false; mode4 := false |}.

(** spi_flash.c:1097-1191; [None] is SPI_FLASH_NO_4BYTE_CMDS. *)
Definition discover (p : part) (d : drv) : option drv :=
  let c3 := match sw p with Fixed => false | _ => k3 p end in
  let c4 := match sw p with Unsupported => false | _ => k4 p end in
  if (c3 && c4) && negb (has4 p) then None
  else Some {| size := p_size p; cap3 := c3; cap4 := c4; native := (c3 && c4) || native d; how := sw p;
               use_flag := p_flag p; mode4 := if negb c3 && c4 then true else mode4 d |}.

Record sys := { dv : drv; cp : chip; tm : nat }.

(** How the transfers fare, by number. *)
Definition env := nat -> fate.

(** flash->spi->xfer *)
Definition transfer (p : part) (E : env) (x : xfer) (s : sys) : res (bool * list N * sys) :=
  let e := E (tm s) in
  if e_ok e || e_done e then
    let x' := if e_ok e then x else {| x_cmd := x_cmd x; x_addr := x_addr x; x_four := x_four x;
                                       x_data := firstn (e_cut e) (x_data x); x_len := x_len x |} in
    '(r, c) <- exec p e x' (cp s); Ret (e_ok e, r, {| dv := dv s; cp := c; tm := S (tm s) |})
  else Ret (false, [], {| dv := dv s; cp := cp s; tm := S (tm s) |}).

Definition simple (c : command) : xfer := {| x_cmd := c; x_addr := 0; x_four := false; x_data := []; x_len := 0 |}.

(** spi_flash.c:927-950 *)
Inductive wip := Idle | InProgress | Failed.
Definition is_wip (p : part) (E : env) (s : sys) : res (wip * sys) :=
  let f := use_flag (dv s) in
  '(ok, r, s) <- transfer p E {| x_cmd := if f then RdFlag else Rdsr; x_addr := 0; x_four := false; x_data := []; x_len := 1 |} s;
  let reg := nth 0 r 0 in
  Ret (if ok then
         if (if f then N.land reg 128 =? 0 else negb (N.land reg 1 =? 0)) then InProgress else Idle
       else Failed, s).

(** spi_flash.c:964-1002 without a timeout; the loop is bounded by the number of status reads the
    device stays busy. *)
Fixpoint wait_loop (fuel : nat) (p : part) (E : env) (s : sys) : res (bool * sys) :=
  match fuel with
  | O => Garbled
  | S fuel =>
    '(w, s) <- is_wip p E s;
    match w with
    | Idle => Ret (true, s)
    | InProgress => wait_loop fuel p E s
    | Failed => Ret (false, s)
    end
  end.
Definition wait (p : part) (E : env) (s : sys) : res (bool * sys) := wait_loop (S (busy (cp s))) p E s.

(** Results: bytes written, data read or an error (address out of range, operation out of range,
    write in progress, transfer failed). *)
Inductive error := AddressRange | OperationRange | Busy | Transfer | NoMode.
Inductive result := Count (n : nat) | Data (l : list N) | Done | Err (e : error).

(** spi_flash.c:57-67; [word] is the number of values of size_t. *)
Definition bounds (word bytes addr len : N) : option error :=
  if bytes <=? addr then Some AddressRange
  else if bytes <? (addr + len) mod word then Some OperationRange
  else None.

(** spi_flash.c:903-906 *)
Definition write_enable (p : part) (E : env) (s : sys) : res (bool * sys) :=
  '(ok, _, s) <- transfer p E (simple Wren) s; Ret (ok, s).

(** Flags of an addressed command: command flags | addr_mode. *)
Definition four (d : drv) : bool := native d || mode4 d.

(** spi_flash.c:2337-2364 *)
Definition read (word : N) (p : part) (E : env) (addr : N) (len : nat) (s : sys) : res (result * sys) :=
  match bounds word (size (dv s)) addr (N.of_nat len) with
  | Some e => Ret (Err e, s)
  | None =>
    '(w, s) <- is_wip p E s;
    match w with
    | Failed => Ret (Err Transfer, s)
    | InProgress => Ret (Err Busy, s)
    | Idle =>
      '(ok, r, s) <- transfer p E {| x_cmd := Read (native (dv s)); x_addr := addr; x_four := four (dv s);
                                     x_data := []; x_len := len |} s;
      Ret (if ok then Data r else Err Transfer, s)
    end
  end.

(** spi_flash.c:2454-2487, the loop of spi_flash_write; returns what is left. *)
Fixpoint write_loop (fuel : nat) (p : part) (E : env) (addr page next : N) (data : list N) (s : sys)
    : res (bool * list N * sys) :=
  match fuel, data with
  | _, [] => Ret (true, [], s)
  | O, _ => Garbled
  | S fuel, _ =>
    let e := w32 (addr + N.of_nat (length data)) in
    let n := if page =? e / 256 * 256 then length data else N.to_nat (w32 (next + 2 ^ 32 - addr)) in
    '(ok, s) <- write_enable p E s;
    if negb ok then Ret (false, data, s)
    else
      '(ok, _, s) <- transfer p E {| x_cmd := Program (native (dv s)); x_addr := addr; x_four := four (dv s);
                                     x_data := firstn n data; x_len := n |} s;
      if negb ok then Ret (false, data, s)
      else
        '(ok, s) <- wait p E s;
        if ok then write_loop fuel p E next next (w32 (next + 256)) (skipn n data) s
        else Ret (false, data, s)
  end.

(** spi_flash.c:2430-2500 *)
Definition write (word : N) (p : part) (E : env) (addr : N) (data : list N) (s : sys) : res (result * sys) :=
  match bounds word (size (dv s)) addr (N.of_nat (length data)) with
  | Some e => Ret (Err e, s)
  | None =>
    '(w, s) <- is_wip p E s;
    match w with
    | Failed => Ret (Err Transfer, s)
    | InProgress => Ret (Err Busy, s)
    | Idle =>
      let page := addr / 256 * 256 in
      '(ok, rest, s) <- write_loop (length data) p E addr page (w32 (page + 256)) data s;
      let n := (length data - length rest)%nat in
      Ret (if negb (Nat.eqb n 0) then Count n else if ok then Count 0 else Err Transfer, s)
    end
  end.

(** spi_flash.c:2536-2560 and 2664-2686, the part that erase functions have in common. *)
Definition erase_with (p : part) (E : env) (x : sys -> xfer) (s : sys) : res (result * sys) :=
  '(w, s) <- is_wip p E s;
  match w with
  | Failed => Ret (Err Transfer, s)
  | InProgress => Ret (Err Busy, s)
  | Idle =>
    '(ok, s) <- write_enable p E s;
    if negb ok then Ret (Err Transfer, s)
    else
      '(ok, _, s) <- transfer p E (x s) s;
      if negb ok then Ret (Err Transfer, s)
      else '(ok, s) <- wait p E s; Ret (if ok then Done else Err Transfer, s)
  end.

(** spi_flash.c:2524-2562 *)
Definition erase_region (p : part) (E : env) (addr : N) (cmd : bool -> command) (s : sys) : res (result * sys) :=
  if size (dv s) <=? addr then Ret (Err AddressRange, s)
  else erase_with p E (fun s => {| x_cmd := cmd (native (dv s)); x_addr := addr; x_four := four (dv s);
                                   x_data := []; x_len := 0 |}) s.

(** spi_flash.c:2591-2599 *)
Definition sector_erase p E addr s := erase_region p E (addr / 4096 * 4096) Sector s.
(** spi_flash.c:2639-2647 *)
Definition block_erase p E addr s := erase_region p E (addr / 65536 * 65536) Block s.
(** spi_flash.c:2656-2688 *)
Definition chip_erase p E s := erase_with p E (fun _ => simple ChipErase) s.

(** spi_flash.c:1853-1873 *)
Inductive support := Switch | ModeFixed | NotSupported.
Definition supports (d : drv) (enable : bool) : support :=
  match how d with
  | InstructionSet => if enable then NotSupported else ModeFixed
  | _ =>
    match cap3 d, cap4 d with
    | true, false => if enable then NotSupported else ModeFixed
    | false, true => if enable then ModeFixed else NotSupported
    | _, _ => Switch
    end
  end.

(** spi_flash.c:1882-1925 *)
Definition set_mode (p : part) (E : env) (enable : bool) (s : sys) : res (result * sys) :=
  match supports (dv s) enable with
  | ModeFixed => Ret (Done, s)
  | NotSupported => Ret (Err NoMode, s)
  | Switch =>
    '(ok, s) <-
      match how (dv s) with CommandWren => write_enable p E s | _ => Ret (true, s) end;
    if negb ok then Ret (Err Transfer, s)
    else
      '(ok, _, s) <- transfer p E (simple (if enable then En4b else Ex4b)) s;
      if ok then
        let d := dv s in
        Ret (Done, {| dv := {| size := size d; cap3 := cap3 d; cap4 := cap4 d; native := native d; how := how d;
                               use_flag := use_flag d; mode4 := enable |}; cp := cp s; tm := tm s |})
      else Ret (Err Transfer, s)
  end.

(** ** Histories: calls of the driver and mode switches by somebody else on the bus *)
Inductive op :=
  | OpRead (addr : N) (len : nat) | OpWrite (addr : N) (data : list N) | OpSector (addr : N) | OpBlock (addr : N)
  | OpChip | OpMode (enable : bool) | Foreign (four : bool).

Definition step (word : N) (p : part) (E : env) (o : op) (s : sys) : res (result * sys) :=
  match o with
  | OpRead a n => read word p E a n s
  | OpWrite a l => write word p E a l s
  | OpSector a => sector_erase p E a s
  | OpBlock a => block_erase p E a s
  | OpChip => chip_erase p E s
  | OpMode b => set_mode p E b s
  | Foreign b =>
    let c := cp s in
    Ret (Done, {| dv := dv s; tm := tm s;
      cp := if switchable p then {| cells := cells c; wel := wel c; busy := busy c; ext := b |} else c |})
  end.

Fixpoint run (word : N) (p : part) (E : env) (l : list op) (s : sys) : res (list result * sys) :=
  match l with
  | [] => Ret ([], s)
  | o :: t => '(r, s) <- step word p E o s; '(rs, s) <- run word p E t s; Ret (r :: rs, s)
  end.
