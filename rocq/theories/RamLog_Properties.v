(** C01, C02, C03: the in-memory log. *)
From Coq Require Import List NArith Lia Bool Arith.
From Verif Require Import Base RamLog_Model RamLog_Spec RamLog_Proofs.
Import ListNotations.

Lemma config_eq : forall blen elen,
  ramlog_config blen elen =
  {| log_size := blen / (elen + header_size) * (elen + header_size); entry_size := elen + header_size |}.
Proof.
  intros. unfold ramlog_config. cbn zeta. f_equal.
  pose proof (Nat.div_mod blen (elen + header_size) ltac:(unfold header_size; lia)). 
  set (e := elen + header_size) in *. set (q := blen / e) in *. set (r := blen mod e) in *. clearbody q r e. nia.
Qed.

Lemma slots_pos : forall blen elen, elen + 7 <= blen -> 0 < blen / (elen + header_size).
Proof. intros. apply Nat.div_str_pos. unfold header_size. lia. Qed.

(** A log on cleared memory of [blen] bytes for entries of [elen] bytes. *)
Definition fresh_log (blen elen : nat) (s : ramlog) : Prop :=
  exists mem, length mem = log_size (ramlog_config blen elen) /\ Forall (fun b => b = 0%N) mem /\
    ramlog_init (ramlog_config blen elen) mem = Some s.

Lemma fresh_inv : forall blen elen s ops, elen + 7 <= blen -> fresh_log blen elen s ->
  inv (blen / (elen + header_size)) elen (ramlog_run (ramlog_config blen elen) s ops) (spec_run elen ops).
Proof.
  intros blen elen s ops H (mem & L & Z & I). rewrite config_eq in *.
  eapply run_inv; eauto. now apply slots_pos.
Qed.

(** C01.  After any history of create and clear calls, a read of the whole log returns the encoded
    last [min (n, N)] entries created since the last clear, oldest first, [N] being the number of
    entries the memory has room for. *)
Theorem C01_newest_entries : forall blen elen s ops buf, elen + 7 <= blen -> fresh_log blen elen s ->
  let c := ramlog_config blen elen in
  let room := blen / (elen + 7) in
  let kept := lastn room (snd (spec_run elen ops)) in
  length (stream kept) <= length buf ->
  read_contents c (ramlog_run c s ops) 0 buf (length buf) =
    (length (stream kept), stream kept ++ skipn (length (stream kept)) buf).
Proof.
  intros blen elen s ops buf H F c room kept Hb.
  destruct (fresh_inv blen elen s ops H F) as (_ & _ & Ok & R). unfold c in *. rewrite config_eq in *.
  rewrite (read_correct (blen / (elen + header_size)) elen (slots_pos _ _ H) _ kept); auto.
  - unfold window. cbn [skipn]. rewrite firstn_all2 by auto. reflexivity.
  - now apply Forall_lastn.
Qed.
Print Assumptions C01_newest_entries.

(** Entry identifiers are consecutive (modulo 2^32). *)
Theorem C01_identifiers_consecutive : forall elen ops, exists first,
  map fst (snd (spec_run elen ops)) =
  map (fun i => (first + N.of_nat i) mod 2 ^ 32)%N (seq 0 (length (snd (spec_run elen ops)))).
Proof. intros. destruct (ids_spec_run 1 elen (le_n 1) ops) as (f & H & _). exists f. exact H. Qed.
Print Assumptions C01_identifiers_consecutive.

(** Copying the log to another log hands over exactly the data of the kept entries, oldest first.
    The entry length field is 16 bits wide, so entries must be shorter than 64 KiB. *)
Theorem C01_copy_entries : forall blen elen s ops, elen + 7 <= blen -> fresh_log blen elen s ->
  (N.of_nat elen + 7 < 65536)%N ->
  let c := ramlog_config blen elen in
  copy_entries c (ramlog_run c s ops) =
    Some (map snd (lastn (blen / (elen + 7)) (snd (spec_run elen ops)))).
Proof.
  intros blen elen s ops H F Hl c.
  destruct (fresh_inv blen elen s ops H F) as (_ & _ & Ok & R). unfold c. rewrite config_eq in *.
  apply copy_entries_correct; auto.
  - now apply slots_pos.
  - now apply Forall_lastn.
  - unfold header_size. lia.
Qed.
Print Assumptions C01_copy_entries.

Definition ex_ops := [Create [1;2]; Create [3;4]; Create [9]; Create [5;6]; Create [7;8]]%N.
Definition ex_log := {| log_start := 0; log_end := 0; next_entry_id := 0; is_full := false; log_buffer := repeat 0%N 27 |}.
Example C01_ex : fresh_log 29 2 ex_log /\
  snd (read_contents (ramlog_config 29 2) (ramlog_run (ramlog_config 29 2) ex_log ex_ops) 0 (repeat 0%N 27) 27) =
  [0xCB;9;0;1;0;0;0;3;4; 0xCB;9;0;2;0;0;0;5;6; 0xCB;9;0;3;0;0;0;7;8]%N /\
  copy_entries (ramlog_config 29 2) (ramlog_run (ramlog_config 29 2) ex_log ex_ops) = Some [[3;4];[5;6];[7;8]]%N.
Proof.
  split; [|split; reflexivity]. exists (repeat 0%N 27). repeat split.
  apply Forall_forall. intros x Hx. now apply repeat_spec in Hx.
Qed.

(** C02.  Reading any window returns that window of the complete stream, leaves the rest of the
    caller's buffer alone, and the reported size is the length of the stream. *)
Theorem C02_windowed_read : forall blen elen s ops off buf len, elen + 7 <= blen -> fresh_log blen elen s ->
  len <= length buf ->
  let c := ramlog_config blen elen in
  let all := stream (lastn (blen / (elen + 7)) (snd (spec_run elen ops))) in
  read_contents c (ramlog_run c s ops) off buf len =
    (length (window off len all), splice buf 0 (window off len all)) /\
  get_size c (ramlog_run c s ops) = length all.
Proof.
  intros blen elen s ops off buf len H F Hb c all.
  destruct (fresh_inv blen elen s ops H F) as (_ & _ & Ok & R). unfold c. rewrite config_eq in *.
  split.
  - apply read_correct; auto; [now apply slots_pos|now apply Forall_lastn].
  - apply get_size_correct; auto; [now apply slots_pos|now apply Forall_lastn].
Qed.
Print Assumptions C02_windowed_read.

Example C02_ex :
  read_contents (ramlog_config 29 2) (ramlog_run (ramlog_config 29 2) ex_log ex_ops) 16 [0;0;0;0;77]%N 4 =
  (4, [5;6;0xCB;9;77]%N).
Proof. reflexivity. Qed.

(** C03.  Starting again on the memory left by any history that left at least one entry gives back
    exactly the state before the reset: same entries, same order, same next identifier, same place
    for the next entry. *)
Theorem C03_warm_reset : forall blen elen s ops, elen + 7 <= blen -> fresh_log blen elen s ->
  (N.of_nat blen < 2 ^ 32)%N ->
  let c := ramlog_config blen elen in
  let s' := ramlog_run c s ops in
  snd (spec_run elen ops) <> [] ->
  ramlog_init_append_existing c (log_buffer s') = Some s'.
Proof.
  intros blen elen s ops H F Hl c s' NE.
  destruct (fresh_inv blen elen s ops H F) as (Nx & _ & Ok & R).
  destruct (ids_spec_run 1 elen (le_n 1) ops) as (f & I & Nf).
  set (room := blen / (elen + header_size)) in *.
  assert (0 < room) by now apply slots_pos.
  destruct (ids_ok_lastn 1 0 (le_n 1) f _ room I) as (f' & I' & E').
  unfold s', c in *. rewrite config_eq in *. fold room in Nx, R |- *.
  apply warm_reset with (l := lastn room (snd (spec_run elen ops))) (first := f'); auto.
  - now apply Forall_lastn.
  - intro Q. apply NE. apply length_zero_iff_nil. apply (f_equal (@length _)) in Q.
    unfold lastn in Q. rewrite skipn_length in Q. simpl in Q. lia.
  - congruence.
  - assert (room <= blen) by (apply Nat.div_le_upper_bound; unfold header_size; lia). lia.
Qed.
Print Assumptions C03_warm_reset.

(** With no entry in memory the log comes back empty (and numbering restarts at zero). *)
Theorem C03_warm_reset_empty : forall blen elen s ops, elen + 7 <= blen -> fresh_log blen elen s ->
  let c := ramlog_config blen elen in
  let s' := ramlog_run c s ops in
  snd (spec_run elen ops) = [] ->
  exists s2, ramlog_init_append_existing c (log_buffer s') = Some s2 /\
    next_entry_id s2 = 0%N /\ get_size c s2 = 0 /\ log_buffer s2 = log_buffer s'.
Proof.
  intros blen elen s ops H F c s' E.
  destruct (fresh_inv blen elen s ops H F) as (_ & _ & _ & R). rewrite E in R.
  unfold s', c in *. rewrite config_eq in *. eexists. split.
  - apply warm_reset_empty; auto. now apply slots_pos.
  - repeat split.
Qed.
Print Assumptions C03_warm_reset_empty.

Example C03_ex : let c := ramlog_config 29 2 in
  snd (spec_run 2 ex_ops) <> [] /\
  ramlog_init_append_existing c (log_buffer (ramlog_run c ex_log ex_ops)) = Some (ramlog_run c ex_log ex_ops).
Proof. split; [discriminate|reflexivity]. Qed.

(** The memory must have been cleared before its first use: on memory that still holds an older log,
    a log started without recovering it and then warm reset shows stale entries as its oldest ones. *)
Definition stale : ramlog :=
  {| log_start := 0; log_end := 0; next_entry_id := 0; is_full := false;
     log_buffer := stream [(40, [9;9]); (41, [8;8]); (42, [7;7])]%N |}.
Theorem C03_stale_memory_refuted : exists s s2, let c := ramlog_config 27 2 in
  ramlog_init c (log_buffer stale) = Some s /\
  ramlog_init_append_existing c (log_buffer (ramlog_run c s [Create [1;1]%N])) = Some s2 /\
  copy_entries c (ramlog_run c s [Create [1;1]%N]) = Some [[1;1]%N] /\
  copy_entries c s2 = Some [[8;8];[7;7];[1;1]]%N.
Proof. eexists. eexists. cbn zeta. split; [reflexivity|]. split; [reflexivity|]. split; reflexivity. Qed.
Print Assumptions C03_stale_memory_refuted.
