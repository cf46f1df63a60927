(** What several stores used as one are supposed to be: one store with the
    blocks of the first, then those of the second, and so on. *)
From Coq Require Import List ZArith Bool.
From Verif Require Import Aggregator_Model.
Import ListNotations.
Local Open Scope Z_scope.

Section SPEC.
Variable B : Type.

(** All blocks, in the order of their ids. *)
Definition all_blocks (l : list (store B)) : list B := concat (map blocks l).

(** A store whose blocks can be counted: the count is not an error, and not
    too large to be one. *)
Definition countable (s : store B) : Prop := count_fails s = None /\ Z.of_nat (length (blocks s)) < 0x7f000000.

(** A store that cannot be counted, or is not there. *)
Definition broken (o : option (store B)) : Prop :=
  match o with None => True | Some s => exists e, count_fails s = Some e /\ is_error e = true end.

(** A value of type int *)
Definition int (z : Z) : Prop := - 0x80000000 <= z <= 0x7fffffff.

Definition sum (l : list Z) : Z := fold_right Z.add 0 l.
End SPEC.
Arguments all_blocks {B}. Arguments countable {B}. Arguments broken {B}.
