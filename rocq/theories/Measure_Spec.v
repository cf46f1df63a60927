(** * Measurement records (DSP0274, section 10.11.1)

    Independent of the code: what a requester reads out of a record, and what
    the device has to report. *)
From Coq Require Import List NArith Bool Arith.
From Verif Require Import Base Measure_Model.
Import ListNotations.
Local Open Scope nat_scope.

(** One measurement as the requester sees it. *)
Record entry := mkEntry { e_index : N; e_raw : bool; e_type : N; e_value : list N }.

(** Reading a record: index, specification 1, size, type and raw flag, size of
    the value, value. *)
Inductive reads : list N -> list entry -> Prop :=
| r_end : reads [] []
| r_block : forall e lo hi lo' hi' rest l,
    (lo + 256 * hi = 3 + N.of_nat (length (e_value e)))%N ->
    (lo' + 256 * hi' = N.of_nat (length (e_value e)))%N ->
    (lo < 256 /\ hi < 256 /\ lo' < 256 /\ hi' < 256 /\ e_type e < 128)%N ->
    reads rest l ->
    reads ([e_index e; 1; lo; hi; (if e_raw e then 128 + e_type e else e_type e); lo'; hi']%N ++ e_value e ++ rest)
      (e :: l).

(** What is reported for a measurement: its raw data if that is asked for and
    there is some, its digest otherwise. *)
Definition reported (raw : bool) (m : meas) : option (bool * list N) :=
  match raw, m_data m, m_digest m with
  | true, Bytes (x :: l), _ => Some (true, x :: l)
  | true, Failed _, _ => None
  | _, _, Bytes d => Some (false, d)
  | _, _, _ => None
  end.

(** Numbered from 1 through all PCRs. *)
Inductive reports (raw : bool) : N -> list meas -> list entry -> Prop :=
| rp_end : forall n, reports raw n [] []
| rp_next : forall n m ms r v l, reported raw m = Some (r, v) -> reports raw (n + 1) ms l ->
    reports raw n (m :: ms) (mkEntry n r (m_type m) v :: l).

(** Of the TCB only, keeping the numbers. *)
Inductive summarises (only_tcb : bool) : N -> list meas -> list entry -> Prop :=
| sm_end : forall n, summarises only_tcb n [] []
| sm_next : forall n m ms d l, (only_tcb = false \/ m_tcb m = true) -> m_digest m = Bytes d ->
    summarises only_tcb (n + 1) ms l ->
    summarises only_tcb n (m :: ms) (mkEntry n false (m_type m) d :: l)
| sm_skip : forall n m ms l, only_tcb = true -> m_tcb m = false ->
    summarises only_tcb (n + 1) ms l -> summarises only_tcb n (m :: ms) l.
