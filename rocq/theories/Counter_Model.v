(** * Model of the reset counters kept in registers

    core/cmd_interface/counter_manager_registers.c:19-139: all functions.

    Modelled: the two registers and the masks; the read and the write of an
    increment, between which the lock is not held.

    Simplified: the manager is not null.  [counter << 16] of 32768 or more is
    undefined in C (the counter is promoted to int); here it has the usual result,
    and [undefined] tells when it happens. *)
From Coq Require Import List NArith Bool Arith.
From Verif Require Import Base.
Import ListNotations.
Local Open Scope N_scope.

(** struct counter_manager_registers: the second register is optional. *)
Record regs := Regs { reg1 : N; reg2 : option N }.

(** enum: CERBERUS_PROTOCOL_CERBERUS_RESET and _COMPONENT_RESET *)
Definition CERBERUS : N := 0.
Definition COMPONENT : N := 1.
Definition LOW : N := N.ones 16.
Definition HIGH : N := N.shiftl (N.ones 16) 16.

(** counter_manager_registers_get_counter (counter_manager_registers.c:104-139);
    [None] is COUNTER_MANAGER_UNKNOWN_COUNTER *)
Definition get (s : regs) (type port : N) : option N :=
  if type =? CERBERUS then Some (N.land (reg1 s) LOW)
  else if type =? COMPONENT then
    if port =? 0 then Some (N.land (N.shiftr (reg1 s) 16) LOW)
    else match reg2 s with
         | Some r => if port =? 1 then Some (N.land r LOW) else None
         | None => None
         end
  else None.

(** counter_manager_registers_set_counter (counter_manager_registers.c:19-54):
    success, and the registers *)
Definition set (s : regs) (type port counter : N) : bool * regs :=
  if type =? CERBERUS then (true, Regs (N.lor (N.land (reg1 s) HIGH) counter) (reg2 s))
  else if type =? COMPONENT then
    if port =? 0 then (true, Regs (N.lor (N.land (reg1 s) LOW) (N.shiftl counter 16)) (reg2 s))
    else match reg2 s with
         | Some r => if port =? 1 then (true, Regs (reg1 s) (Some (N.lor (N.land r HIGH) counter))) else (false, s)
         | None => (false, s)
         end
  else (false, s).

(** Whether the shift of line 37 is undefined. *)
Definition undefined (type port counter : N) : bool := (type =? COMPONENT) && (port =? 0) && (32768 <=? counter).

(** counter_manager_registers_clear (65-69) and counter_manager_registers_increment
    (80-93) *)
Inductive op := Clear (type port : N) | Increment (type port : N).
Definition step (s : regs) (o : op) : bool * regs :=
  match o with
  | Clear t p => set s t p 0
  | Increment t p =>
      match get s t p with
      | None => (false, s)
      | Some c => set s t p ((c + 1) mod 65536)
      end
  end.
Definition run (s : regs) (l : list op) : regs := fold_left (fun s o => snd (step s o)) l s.

(** Two increments of the same counter by two tasks: both read (line 85) before either
    writes (line 92). *)
Definition both (s : regs) (t p : N) : regs :=
  match get s t p, get s t p with
  | Some a, Some b => snd (set (snd (set s t p ((a + 1) mod 65536))) t p ((b + 1) mod 65536))
  | _, _ => s
  end.
