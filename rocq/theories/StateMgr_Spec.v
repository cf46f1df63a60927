(** Specification vocabulary for the non-volatile state manager: power loss and histories. *)
From Coq Require Import List NArith Bool.
From Verif Require Import Base Flash_Base StateMgr_Model.
Import ListNotations.
Local Open Scope N_scope.

(** The markers of a properly stored word: bit 7 set and bit 6 clear; 16 bits. *)
Definition stored_form (s : N) : Prop :=
  s < 65536 /\ N.testbit s 7 = true /\ N.testbit s 6 = false.

(** Two state words are the same for every bit except the two format markers. *)
Definition same_state (a b : N) : Prop := forall i, i <> 6 -> i <> 7 -> N.testbit a i = N.testbit b i.

(** What one flash operation may leave behind when power is lost after it has begun.  A program
    operation has stopped after some number of bytes, two full copies of the word being down.  An
    erase has stopped after any number of bytes that covers at least the first entry. *)
Inductive torn : image -> flash_op -> image -> Prop :=
| torn_write : forall m a d k, (4 <= k)%nat -> torn m (FWrite a d) (nor_write m a (firstn k d))
| torn_erase : forall m a n j, 8 <= j -> j <= n -> torn m (FErase a n) (nor_erase m a j).

(** The flash after power is lost somewhere in a sequence of operations: the earlier ones are
    complete, one is torn, the later ones never start. *)
Inductive power_loss (m : image) : list flash_op -> image -> Prop :=
| pl_before : forall ops, power_loss m ops m
| pl_torn : forall op ops m', torn m op m' -> power_loss m (op :: ops) m'
| pl_later : forall op ops m', power_loss (flash_do m op) ops m' -> power_loss m (op :: ops) m'.

Section History.
Variables base ss : N.

(** The state word a device reports after starting up with this flash content. *)
Definition recovered (m : image) : N := nv_state (snd (init_state base ss m)).

(** A running device: its flash and the manager's memory. *)
Definition device : Type := (image * sm)%type.

Definition start (m : image) : device :=
  let '(ops, s) := init_state base ss m in (flash_run m ops, s).

(** Everything that can happen to a device. *)
Inductive event : device -> device -> Prop :=
| ev_set : forall m s v, v < 65536 -> event (m, s) (m, set_state s v)
| ev_store : forall m s wf ops st s',
    store base ss wf false m s = (ops, st, s') -> event (m, s) (flash_run m ops, s')
| ev_restart : forall m s, event (m, s) (start m)
| ev_power_loss : forall m s m1,
    power_loss m (fst (fst (store base ss false false m s))) m1 -> event (m, s) (start m1)
| ev_power_loss_starting : forall m s m1,
    power_loss m (fst (init_state base ss m)) m1 -> event (m, s) (start m1).

Inductive history : device -> Prop :=
| h_first : forall m, blank_on m base (2 * ss) -> history (start m)
| h_next : forall d d', history d -> event d d' -> history d'.

End History.

(** A run without power loss, remembering the last state word whose store was reported as
    successful.  Before any store that is the all-ones default. *)
Inductive op := OSet (v : N) | OStore (write_fails : bool) | ORestart.

Definition op_ok (o : op) : Prop := match o with OSet v => v < 65536 | _ => True end.

Definition run_op (base ss : N) (dv : device * N) (o : op) : device * N :=
  let '((m, s), v) := dv in
  match o with
  | OSet x => ((m, set_state s x), v)
  | OStore wf =>
    let '(ops, st, s') := store base ss wf false m s in
    ((flash_run m ops, s'), match st with StOk => nv_state s | _ => v end)
  | ORestart => (start base ss m, v)
  end.

Definition run (base ss : N) (m0 : image) (l : list op) : device * N :=
  fold_left (run_op base ss) l (start base ss m0, 65535).
