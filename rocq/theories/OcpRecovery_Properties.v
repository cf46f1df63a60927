(** The OCP recovery interface: framing on the bus, confinement, transfers. *)
From Coq Require Import List NArith ZArith Lia Bool Arith ZifyBool ZifyNat ZifyN.
From Verif Require Import Base Flash_Base Crc8_Model Crc8_Spec OcpRecovery_Model OcpRecovery_Spec OcpRecovery_Bus_Proofs
  OcpRecovery_Dev_Proofs OcpRecovery_History_Proofs OcpRecovery_Transfer_Proofs.
Import ListNotations.
Local Open Scope N_scope.

(** A configuration with a code region of two sectors in flash, memory to read and write and memory
    to read. *)
Definition ex_config : config :=
  {| cms := Some [{| r_type := 0; r_len := 512; r_back := Nor 1024 |}; {| r_type := 5; r_len := 256; r_back := Ram |};
                  {| r_type := 1; r_len := 6; r_back := Ram |}];
     has_reset := true; has_mgmt := false; has_forced := true; has_activate := true; flash_size := 4096; sector := 256 |}.
Definition ex_store : store :=
  {| mem := fun i => match i with 1%nat => repeat 1 256 | 2%nat => [1; 2; 3; 4; 5; 6] | _ => [] end;
     flash := fun _ => 0; erase_at := fun _ => 0 |}.
Definition ex_dev : dev :=
  {| active := 0; proto := 0; rstat := 1; istat := 0; reset := [0; 0; 0]; rctrl := [0; 0; 0];
     ic_cms := 0; ic_res := 0; ic_off := 0; st := set_erase 0 1024 ex_store |}.
Definition ex_faults : faults :=
  {| f_erase := fun _ => (true, true); f_size := fun _ => true; f_write := fun _ => (255%nat, true);
     f_activate := Ok; f_auth := false |}.
Definition ex_answers : answers :=
  {| a_id := None; a_status := 1; a_reason := 0; a_vendor := []; a_size := None; a_data := fun _ => None; a_flash := true |}.

(** ** C61: framing *)

(** For every state and every sequence of bytes, the bytes of a write to the device meet exactly the
    fate that the framing rules give them: an unknown command is not acknowledged, a message with too
    few or too many bytes or with a wrong packet error code reaches no command (only the protocol
    status shows it), and everything else is handed to the command as it was sent. *)
Theorem C61_write : forall c s a bs f w, a < 128 -> bytes_ok bs -> frame a bs w ->
  match effect c f w (dv s) with
  | Wild => run c s (message a bs f) = Wild
  | Ret (d, ev) => exists s' outs, run c s (message a bs f) = Ret (s', outs ++ [Events ev]) /\ dv s' = d /\
      Forall silent outs /\ Forall (acks w) outs
  end.
Proof. intros. now apply run_message. Qed.
Print Assumptions C61_write.

Lemma app_inv_len : forall (p1 p2 a b : list N), length p1 = length p2 -> p1 ++ a = p2 ++ b -> p1 = p2 /\ a = b.
Proof.
  induction p1; intros [|y p2] x z L H; try discriminate; [auto|]. cbn in L, H. injection H as -> H.
  destruct (IHp1 p2 x z) as [-> ->]; auto.
Qed.

(** The rules give one fate to every sequence of bytes whose byte count is not 255. *)
Theorem C61_fate : forall a bs, nth 1 bs 0 < 255 -> bytes_ok bs -> a < 128 ->
  exists w, frame a bs w /\ forall w', frame a bs w' -> w' = w.
Proof.
  intros a bs H Hb Ha. destruct (frame_total a bs H Hb Ha) as [w F]. exists w. split; [exact F|].
  intros w' F'. destruct bs as [|x [|n t]].
  - inversion F; inversion F'; congruence.
  - inversion F; subst; inversion F'; subst; try congruence; try contradiction; cbn in *; lia.
  - cbn [nth] in H.
    inversion F as [|? ? K|? K|? ? K L|? ? ? K L|? p K|? p ? ? K L1 L2 P|? p ? ? K L1 L2 P]; subst;
    inversion F' as [|? ? K'|? K'|? ? K' L'|? ? ? K' L'|? p' K'|? p' ? ? K' L1' L2' P'|? p' ? ? K' L1' L2' P']; subst;
    try reflexivity; try contradiction; cbn [length] in *; rewrite ?app_length in *; cbn [length] in *; try (exfalso; lia).
    1: (apply app_inv_len in H2; [|lia]); destruct H2 as [-> E2]; reflexivity.
    all: (apply app_inv_len in H2; [|lia]); destruct H2 as [-> E2]; injection E2 as -> ->; contradiction.
Qed.
Print Assumptions C61_fate.

(** A read is answered with the length, the data of the command and the packet error code of the
    whole exchange; a failed one with length 0 and the packet error code. *)
Theorem C61_read : forall c s a x e f, a < 128 -> byte_ok x -> known x ->
  match read_request c e (set_active x (dv s)) with
  | Wild => run c s (query a x e f) = Wild
  | Ret (Answer bytes n, d) => (n <= length bytes <= 255)%nat -> (n < 255)%nat -> bytes_ok (firstn n bytes) ->
    exists s' l q, run c s (query a x e f) = Ret (s', [Quiet; Ack true; Sent l; Events []]) /\ dv s' = d /\
      firstn (n + 2) l = N.of_nat n :: firstn n bytes ++ [q] /\
      pec (a * 2 :: x :: a * 2 + 1 :: N.of_nat n :: firstn n bytes) q
  | Ret (Fail _, d) =>
    exists s' l q, run c s (query a x e f) = Ret (s', [Quiet; Ack true; Sent l; Events []]) /\ dv s' = d /\
      firstn 2 l = [0; q] /\ pec [a * 2; x; a * 2 + 1; 0] q
  end.
Proof. intros. now apply run_query. Qed.
Print Assumptions C61_read.

(** Reading the device status (command 0x24) delivers the protocol status, and
    clears it: read again it is 0, unless something went wrong in between. *)
Theorem C61_status_cleared : forall c s a e f, a < 128 -> bytes_ok (a_vendor e) -> proto (dv s) < 256 ->
  exists s' l, run c s (query a 0x24 e f) = Ret (s', [Quiet; Ack true; Sent l; Events []]) /\
    nth 0 l 0 = 12 /\ nth 1 l 0 = a_status e mod 256 /\ nth 2 l 0 = proto (dv s) /\ proto (dv s') = 0 /\
    st (dv s') = st (dv s).
Proof.
  intros c s a e f Ha Hv Hp.
  pose proof (C61_read c s a 0x24 e f Ha ltac:(unfold byte_ok; lia) ltac:(unfold known; lia)) as R.
  assert (V : length (firstn 5 (a_vendor e ++ repeat 0 5)) = 5%nat)
    by (rewrite firstn_length, app_length, repeat_length; lia).
  assert (Bv : bytes_ok (firstn 5 (a_vendor e ++ repeat 0 5))).
  { apply Forall_firstn. apply bytes_ok_app. split; [exact Hv|]. repeat (constructor; [reflexivity|]). constructor. }
  set (v := firstn 5 (a_vendor e ++ repeat 0 5)) in *.
  assert (E : read_request c e (set_active 0x24 (dv s)) =
    Ret (Answer ([a_status e mod 256; proto (dv s)] ++ le16 (a_reason e) ++ [0; 0; 5] ++ v)
      (length ([a_status e mod 256; proto (dv s)] ++ le16 (a_reason e) ++ [0; 0; 5] ++ v)),
      set_active 0 (set_proto 0 (set_active 0x24 (dv s))))) by reflexivity.
  rewrite E in R. clear E.
  set (bytes := [a_status e mod 256; proto (dv s)] ++ le16 (a_reason e) ++ [0; 0; 5] ++ v) in *.
  assert (L : length bytes = 12%nat) by (unfold bytes; rewrite !app_length, V; reflexivity).
  assert (B : bytes_ok bytes).
  { unfold bytes. apply bytes_ok_app. split.
    - constructor; [apply N.mod_lt; lia|]. constructor; [exact Hp|constructor].
    - apply bytes_ok_app. split; [unfold le16; repeat (constructor; [apply N.mod_lt; lia|]); constructor|].
      apply bytes_ok_app. split; [repeat (constructor; [unfold byte_ok; lia|]); constructor|exact Bv]. }
  rewrite L in R. destruct R as (s' & l & q & R1 & R2 & R3 & _); [lia|lia|apply Forall_firstn; exact B|].
  exists s', l. split; [exact R1|].
  assert (X : forall i, (i < 14)%nat -> nth i l 0 = nth i (12 :: firstn 12 bytes ++ [q]) 0).
  { intros i Hi. change (12 :: firstn 12 bytes ++ [q]) with (N.of_nat 12 :: firstn 12 bytes ++ [q]).
    rewrite <- R3. symmetry. apply nth_firstn. exact Hi. }
  rewrite !X by lia. rewrite R2. repeat split; reflexivity.
Qed.
Print Assumptions C61_status_cleared.

Example C61_example :
  frame 0x69 [0x25; 3; 1; 0; 0; 0x8e] (Deliver 0x25 [1; 0; 0]) /\ frame 0x69 [0x25; 3; 1; 0; 0; 0x8f] BadPec /\
  frame 0x69 [0x25; 3; 1] BadLength /\
  effect ex_config ex_faults (Deliver 0x25 [1; 0; 0]) ex_dev = Ret (ex_dev, [EvReset false]).
Proof.
  split; [|split; [|split; [|reflexivity]]].
  - apply (F_pec 0x69 0x25 [1; 0; 0] 0x8e []); [unfold known; lia|cbn; lia|cbn; lia|].
    apply pec_loop; [repeat (constructor; [reflexivity|]); constructor|reflexivity].
  - apply (F_bad 0x69 0x25 [1; 0; 0] 0x8f []); [unfold known; lia|cbn; lia|cbn; lia|].
    rewrite pec_loop by (repeat (constructor; [reflexivity|]); constructor). vm_compute. discriminate.
  - apply F_short; [unfold known; lia|reflexivity].
Qed.

(** Violated for a block of 255 bytes: the number of bytes given to the checksum is a uint8_t and
    becomes 0.  The block with the correct packet error code is refused as damaged; with the code of
    the two bytes before the block it is accepted, whatever the block contains. *)
Theorem C61_block_of_255_refuted : exists c s a f q k, a < 128 /\
  forall v, v = repeat 7 255 \/ v = repeat 9 255 ->
  (v = repeat 7 255 -> pec (a * 2 :: 0x2b :: 255 :: v) q) /\
  ~ pec (a * 2 :: 0x2b :: 255 :: v) k /\
  (exists s' outs, run c s (message a (0x2b :: 255 :: v ++ [k]) f) = Ret (s', outs) /\
     proto (dv s') = 0 /\ firstn 255 (mem (st (dv s')) 1) = v) /\
  (exists s' outs, run c s (message a (0x2b :: 255 :: repeat 7 255 ++ [q]) f) = Ret (s', outs) /\
     proto (dv s') = 4 /\ mem (st (dv s')) 1 = mem (st (dv s)) 1).
Proof.
  exists ex_config, (bus_init (set_ictrl 1 0 0 ex_dev)), 0x69, ex_faults,
    (crc8_loop 0 (0xd2 :: 0x2b :: 255 :: repeat 7 255)), (crc8_loop 0 [0xd2; 0x2b]).
  split; [lia|]. intros v Hv.
  assert (bytes_ok v) as Hb.
  { apply Forall_forall. intros x Hx. destruct Hv as [-> | ->]; apply repeat_spec in Hx; subst x; reflexivity. }
  assert (bytes_ok (0x69 * 2 :: 0x2b :: 255 :: v)) as Hb2 by (repeat (constructor; [reflexivity|]); exact Hb).
  split; [|split; [|split]].
  - intros ->. now apply pec_loop.
  - rewrite pec_loop by exact Hb2. destruct Hv as [-> | ->]; vm_compute; discriminate.
  - destruct Hv as [-> | ->]; eexists _, _; (split; [vm_compute; reflexivity|]); split; vm_compute; reflexivity.
  - eexists _, _; (split; [vm_compute; reflexivity|]); split; vm_compute; reflexivity.
Qed.
Print Assumptions C61_block_of_255_refuted.

(** Violated: a command code sent alone stays active when the next code is refused; the read that
    follows is answered by the old command. *)
Theorem C61_stale_command_refuted : exists c s a e f l s', a < 128 /\
  run c s ([Start a; Byte 0x22; Stop f] ++ query a 0x80 e f) =
    Ret (s', [Quiet; Ack true; Events []; Quiet; Ack false; Sent l; Events []]) /\
  firstn 16 l = 15 :: read_prot_cap c.
Proof.
  exists ex_config, (bus_init ex_dev), 0x69, ex_answers, ex_faults. eexists _, _.
  split; [lia|]. split; vm_compute; reflexivity.
Qed.
Print Assumptions C61_stale_command_refuted.

(** Violated: an unknown command sets one bit of the protocol status that is already there; after an
    unsupported parameter (2) the status shows a length error (3), although no length was wrong. *)
Theorem C61_status_mixed_refuted : exists c s a f s' outs, a < 128 /\ proto (dv s) = 0 /\
  run c s (message a [0x25; 3; 1; 0; 9] f ++ message a [0x80] f) = Ret (s', outs) /\ proto (dv s') = 3 /\
  frame a [0x25; 3; 1; 0; 9] (Deliver 0x25 [1; 0; 9]) /\ frame a [0x80] BadCode.
Proof.
  exists ex_config, (bus_init ex_dev), 0x69, ex_faults. eexists _, _.
  split; [lia|]. split; [reflexivity|]. split; [vm_compute; reflexivity|]. split; [vm_compute; reflexivity|].
  split; [apply (F_plain 0x69 0x25 [1; 0; 9])|apply F_code]; unfold known; lia.
Qed.
Print Assumptions C61_status_mixed_refuted.

(** ** C62: confinement *)

(** Whatever is sent over the bus, and whatever the flash does: the device stays within its memory,
    changes only regions that may be written, and calls the hardware interface only for functions it
    announces; only a code region is ever activated. *)
Theorem C62_confined : forall c s0 d ops, sane c -> one_flash c -> fits c s0 -> dev_init c s0 = Ret (IOk, d) ->
  Forall fair ops ->
  exists s outs, run c (bus_init d) ops = Ret (s, outs) /\
    (forall i, (forall r, nth_error (regions c) i = Some r -> ~ writable r) -> mem (st (dv s)) i = mem s0 i) /\
    (forall i, length (mem (st (dv s)) i) = length (mem s0 i)) /\
    (forall x, ~ exposed c x -> flash (st (dv s)) x = flash s0 x) /\
    (forall l ev, In (Events l) outs -> In ev l -> allowed c ev).
Proof.
  intros c s0 d ops SA OF FI IN FA. destruct (init_good c s0 d SA OF FI IN) as (AL & G & K).
  destruct (run_safe c s0 ops (bus_init d) SA AL (bus_init_ok c s0 d G K) FA) as (s & outs & R & B & E).
  exists s, outs. split; [exact R|]. destruct B as (_ & _ & _ & _ & K1 & K2 & K3).
  split; [exact K1|]. split; [exact K2|]. split; [exact K3|].
  intros l ev Hl He. rewrite Forall_forall in E. specialize (E _ Hl). cbn in E. rewrite Forall_forall in E. auto.
Qed.
Print Assumptions C62_confined.

(** Of the writes only INDIRECT_DATA changes what is stored, and only in the selected region. *)
Theorem C62_selected : forall c s0 d ops s outs a bs f code payload, sane c -> one_flash c -> fits c s0 ->
  dev_init c s0 = Ret (IOk, d) -> Forall fair ops -> run c (bus_init d) ops = Ret (s, outs) ->
  a < 128 -> bytes_ok bs -> frame a bs (Deliver code payload) ->
  exists s' outs', run c s (message a bs f) = Ret (s', outs') /\
    let i := N.to_nat (ic_cms (dv s)) in
    (code <> 0x2b -> st (dv s') = st (dv s)) /\
    (forall j, j <> i -> mem (st (dv s')) j = mem (st (dv s)) j) /\
    (forall r, nth_error (regions c) i = Some r ->
       (r_back r = Ram -> forall x, flash (st (dv s')) x = flash (st (dv s)) x) /\
       (forall base, r_back r = Nor base -> mem (st (dv s')) i = mem (st (dv s)) i /\
          forall x, x < base \/ base + r_len r <= x -> flash (st (dv s')) x = flash (st (dv s)) x)).
Proof.
  intros c s0 d ops s outs a bs f code payload SA OF FI IN FA R Ha Hb Fr.
  destruct (init_good c s0 d SA OF FI IN) as (AL & G & K).
  destruct (run_safe c s0 ops (bus_init d) SA AL (bus_init_ok c s0 d G K) FA) as (s1 & outs1 & R1 & B & E).
  assert (s1 = s) as -> by congruence. destruct B as (_ & _ & _ & GS & KS).
  assert (good c (set_active code (dv s))) as GS2 by exact GS.
  destruct (write_request_safe c f payload (set_active code (dv s)) SA AL GS2) as (st' & d' & ev & W & KW & GW & _ & AW & NW & TW).
  pose proof (run_message c s a bs f (Deliver code payload) Ha Hb Fr) as M. cbn [effect] in M. rewrite W in M. cbn [outcome_of] in M.
  destruct M as (s' & outs' & RM & D & _). eexists _, _. split; [exact RM|]. rewrite D. cbv zeta.
  cbn [active set_active st ic_cms] in *.
  split; [exact NW|].
  destruct (nth_error (regions c) (N.to_nat (ic_cms (dv s)))) as [r|] eqn:Hn.
  - destruct (N.eq_dec (r_type r) REGION_CODE) as [T|T]; [|destruct (N.eq_dec (r_type r) REGION_RW) as [T2|T2]].
    1, 2: specialize (TW _ r eq_refl Hn ltac:(unfold writable; auto)) as (T1 & T3 & T4);
      (split; [intros j Hj; apply (T1 j Hj)|]); intros r' Hr; injection Hr as <-;
      (split; [intros Bk; rewrite Bk in T4; auto|intros base Bk; rewrite Bk in T4; exact T4]).
    assert (st d' = st (dv s)) as Q.
    { destruct (N.eq_dec code 0x2b) as [->|NE]; [|now apply NW]. revert W. unfold write_request. cbn [active set_active].
      change (0x2b =? 0) with false. change (0x2b =? CMD_RESET) with false. change (0x2b =? CMD_RECOVERY_CTRL) with false.
      change (0x2b =? CMD_INDIRECT_CTRL) with false. change (0x2b =? CMD_INDIRECT_DATA) with true. cbv iota.
      unfold write_indirect_data. rewrite (regions_some _ _ _ Hn). cbn [ic_cms set_active]. rewrite Hn.
      apply N.eqb_neq in T, T2. rewrite T, T2. cbn. intros H. injection H as <- <- <-. reflexivity. }
    rewrite Q. split; [auto|]. intros; split; auto.
  - assert (st d' = st (dv s)) as Q.
    { destruct (N.eq_dec code 0x2b) as [->|NE]; [|now apply NW]. revert W. unfold write_request. cbn [active set_active].
      change (0x2b =? 0) with false. change (0x2b =? CMD_RESET) with false. change (0x2b =? CMD_RECOVERY_CTRL) with false.
      change (0x2b =? CMD_INDIRECT_CTRL) with false. change (0x2b =? CMD_INDIRECT_DATA) with true. cbv iota.
      unfold write_indirect_data. unfold regions in Hn. destruct (cms c); cbn [ic_cms set_active] in *; [rewrite Hn|];
      cbn; intros H; injection H as <- <- <-; reflexivity. }
    rewrite Q. split; [auto|]. intros r Hr; discriminate.
Qed.
Print Assumptions C62_selected.

Lemma ex_sane : sane ex_config.
Proof.
  unfold sane. cbn. split; [reflexivity|]. split; [lia|]. split; [reflexivity|].
  repeat constructor; cbn; try lia; try discriminate.
Qed.
Lemma ex_fits : fits ex_config ex_store.
Proof. intros [|[|[|i]]] r H B; cbn in H; try (destruct i; discriminate); injection H as <-; try discriminate; reflexivity. Qed.

Example C62_example : sane ex_config /\ one_flash ex_config /\ fits ex_config ex_store /\
  dev_init ex_config ex_store = Ret (IOk, ex_dev) /\ exposed ex_config 1024 /\ ~ exposed ex_config 1536.
Proof.
  split; [apply ex_sane|]. split.
  { intros [|[|[|i]]] r base H B; cbn in H; auto; try (destruct i; discriminate); injection H as <-; discriminate. }
  split; [apply ex_fits|]. split; [reflexivity|]. split.
  - exists O, {| r_type := 0; r_len := 512; r_back := Nor 1024 |}, 1024. cbn. unfold writable. cbn. repeat split; auto; lia.
  - intros ([|[|[|i]]] & r & base & H & W & B & L); cbn in H; try (destruct i; discriminate); injection H as <-;
    try discriminate. cbn in B, L. injection B as <-. lia.
Qed.

Definition two_flash (t1 : N) (b2 : N) : config :=
  {| cms := Some [{| r_type := t1; r_len := 512; r_back := Nor 1024 |}; {| r_type := 5; r_len := 512; r_back := Nor b2 |}];
     has_reset := true; has_mgmt := false; has_forced := true; has_activate := true; flash_size := 4096; sector := 256 |}.

(** Violated with two regions in flash: the initialisation gives every flash region the base address
    of the first one as the place to erase next.  A write to the second region at an offset other
    than 0 erases a sector of the first, here one that may only be read; all is reported as done. *)
Theorem C62_other_region_erased_refuted : exists c s0 d a f s outs x, sane c /\ dev_init c s0 = Ret (IOk, d) /\
  a < 128 /\ healthy f /\ ~ exposed c x /\
  run c (bus_init d) (select a 1 4 f ++ push a f [1; 2; 3; 4]) = Ret (s, outs) /\
  proto (dv s) = 0 /\ istat (dv s) = 0 /\ flash s0 x = 0 /\ flash (st (dv s)) x = 255.
Proof.
  exists (two_flash 1 2048), ex_store. eexists _, 0x69, ex_faults, _, _, 1024.
  split.
  { unfold sane. cbn. split; [reflexivity|]. split; [lia|]. split; [reflexivity|]. repeat constructor; cbn; try lia; try discriminate. }
  split; [reflexivity|]. split; [lia|]. split; [intros k; cbn; repeat split; lia|]. split.
  { intros ([|[|i]] & r & base & H & W & B & L); cbn in H; try (destruct i; discriminate); injection H as <-.
    - destruct W; discriminate.
    - cbn in B, L. injection B as <-. lia. }
  split; [vm_compute; reflexivity|]. split; [reflexivity|]. split; [reflexivity|]. split; [reflexivity|]. vm_compute. reflexivity.
Qed.
Print Assumptions C62_other_region_erased_refuted.

(** Violated: the size of the flash is compared with the end of the first region only; a second
    region beyond the end of the device is accepted. *)
Theorem C62_init_unchecked_refuted : exists c s0 d r base, dev_init c s0 = Ret (IOk, d) /\
  nth_error (regions c) 1 = Some r /\ r_back r = Nor base /\ writable r /\ flash_size c < base.
Proof.
  exists (two_flash 0 8192), ex_store. eexists _, _, _. split; [reflexivity|]. split; [reflexivity|]. split; [reflexivity|].
  split; [right; reflexivity|reflexivity].
Qed.
Print Assumptions C62_init_unchecked_refuted.

(** Violated when the first region is memory and a later one is in flash: the initialisation uses the
    data pointer of the first region as a flash interface. *)
Theorem C62_init_wild_refuted : exists c s0, sane c /\ fits c s0 /\ dev_init c s0 = Wild.
Proof.
  exists {| cms := Some [{| r_type := 5; r_len := 256; r_back := Ram |}; {| r_type := 0; r_len := 512; r_back := Nor 1024 |}];
     has_reset := true; has_mgmt := false; has_forced := true; has_activate := true; flash_size := 4096; sector := 256 |},
    {| mem := fun _ => repeat 0 256; flash := fun _ => 0; erase_at := fun _ => 0 |}.
  split.
  { unfold sane. cbn. split; [reflexivity|]. split; [lia|]. split; [reflexivity|]. repeat constructor; cbn; try lia; try discriminate. }
  split; [|reflexivity].
  intros [|[|i]] r H B; cbn in H; try (destruct i; discriminate); injection H as <-; try discriminate; reflexivity.
Qed.
Print Assumptions C62_init_wild_refuted.

(** ** C63: transfers *)

(** An image sent in pieces to a region selected at offset 0 is what the region then starts with,
    whatever was there before; nothing else is reported or triggered. *)
Theorem C63_push : forall c s a i r f ps, a < 128 -> (i < 256)%nat -> sane c -> nth_error (regions c) i = Some r ->
  writable r -> 0 < r_len r -> fits c (st (dv s)) -> healthy f -> pieces ps ->
  N.of_nat (length (concat ps)) <= r_len r ->
  exists s' outs, run c s (select a i 0 f ++ flat_map (push a f) ps) = Ret (s', outs) /\ Forall silent outs /\
    istat (dv s') = istat (dv s) /\ proto (dv s') = proto (dv s) /\
    match r_back r with
    | Ram => mem (st (dv s')) i = concat ps ++ skipn (length (concat ps)) (mem (st (dv s)) i)
    | Nor base => img_read (flash (st (dv s'))) base (length (concat ps)) = concat ps
    | Log => False
    end.
Proof.
  intros c s a i r f ps Ha Hi SA Hn W L0 FI H P L.
  destruct (run_transfer c s a i r f ps Ha Hi SA Hn W L0 FI H P L) as (s' & outs & R & Q & S & I1 & P1).
  exists s', outs. split; [exact R|]. split; [exact Q|]. split; [exact I1|]. split; [exact P1|].
  unfold stored in S. destruct (r_back r); auto. apply S.
Qed.
Print Assumptions C63_push.

(** Reading a region from offset 0, as often as its size requires, gives its contents, filled up
    with zeros to a multiple of four bytes, and changes nothing. *)
Theorem C63_read_back : forall c s a e f i r l, a < 128 -> (i < 256)%nat -> sane c -> nth_error (regions c) i = Some r ->
  holds (st (dv s)) e i r l -> (r_back r = Log \/ N.of_nat (length l) = r_len r) -> N.of_nat (length l) < 2 ^ 32 - 4 ->
  l <> [] -> bytes_ok l ->
  exists s' outs, run c s (select a i 0 f ++ concat (repeat (fetch a e f) ((length l + 251) / 252))) = Ret (s', outs) /\
    received outs = l ++ repeat 0 (N.to_nat (up4 (N.of_nat (length l))) - length l) /\
    st (dv s') = st (dv s) /\ istat (dv s') = istat (dv s) /\ Forall silent outs.
Proof.
  intros c s a e f i r l Ha Hi SA Hn H LE LB NE Hl.
  destruct (run_select c s a i 0 f Ha Hi ltac:(reflexivity) eq_refl) as (s1 & outs & R & Q & D).
  { rewrite (regions_some _ _ _ Hn). discriminate. }
  assert (length l <> 0)%nat as L0 by (destruct l; [contradiction|discriminate]).
  assert (exists k, (length l + 251) / 252 = S k /\ 252 * k < length l <= 252 * S k)%nat as (k & -> & K).
  { exists ((length l - 1) / 252)%nat. pose proof (Nat.div_mod (length l - 1) 252 ltac:(lia)) as DM.
    pose proof (Nat.mod_upper_bound (length l - 1) 252 ltac:(lia)).
    replace (length l + 251)%nat with (1 * 252 + (length l - 1))%nat by lia. rewrite Nat.div_add_l by lia.
    set (q := ((length l - 1) / 252)%nat) in *. clearbody q. lia. }
  destruct (run_fetch c a e f i r l k s1 0 Ha SA Hn) as (s2 & outs2 & R2 & S2 & Rc & Q2 & I2); auto.
  - rewrite D. exact H.
  - destruct (r_back r); auto; destruct LE; auto; discriminate.
  - rewrite D. reflexivity.
  - rewrite D. reflexivity.
  - lia.
  - lia.
  - rewrite run_app, R. cbn [bind]. rewrite R2. cbn [bind]. eexists _, _. split; [reflexivity|].
    rewrite received_app, Rc. split; [|split; [rewrite S2, D; reflexivity|split; [rewrite I2, D; reflexivity|apply Forall_app; auto]]].
    unfold tail4. rewrite Nat.sub_0_r. cbn [skipn].
    assert (received outs = []) as RO.
    { clear - R. unfold select, message in R. revert R. generalize ([41; 6; N.of_nat i; 0] ++ le32 0). intros bs R.
      apply (write_sends_nothing c (Start a :: map Byte bs ++ [Stop f])) in R; auto.
      constructor; [exact I|]. apply Forall_app. split; [|repeat constructor]. apply Forall_map. apply Forall_forall. intros; exact I. }
    rewrite RO. reflexivity.
Qed.
Print Assumptions C63_read_back.

(** Data written across the end of a memory region continue at its start, and this is reported. *)
Theorem C63_wraps : forall c f i r d data, sane c -> nth_error (regions c) i = Some r -> writable r -> r_back r = Ram ->
  N.of_nat (length (mem (st d) i)) = r_len r -> ic_cms d = N.of_nat i ->
  r_len r mod 4 = 0 -> ic_off d mod 4 = 0 -> ic_off d < r_len r -> 0 < N.of_nat (length data) <= r_len r ->
  (length data <= 255)%nat ->
  let len := length (mem (st d) i) in
  let off := N.to_nat (ic_off d) in
  exists d', write_request c f (set_active 0x2b d) data = Ret (Ok, d', []) /\
    length (mem (st d') i) = len /\
    (forall k, (k < length data)%nat -> nth ((off + k) mod len) (mem (st d') i) 0 = nth k data 0) /\
    (forall k, (length data <= k < len)%nat -> nth ((off + k) mod len) (mem (st d') i) 0 = nth ((off + k) mod len) (mem (st d) i) 0) /\
    istat d' = (if (off + length data <=? len)%nat then istat d else N.lor (istat d) 1) /\ proto d' = proto d.
Proof. intros. now apply write_wraps with (r := r). Qed.
Print Assumptions C63_wraps.

Example C63_example : exists s outs s2 outs2,
  pieces [repeat 7 252; repeat 9 255] /\ healthy ex_faults /\
  run ex_config (bus_init ex_dev) (select 0x69 0 0 ex_faults ++ flat_map (push 0x69 ex_faults) [repeat 7 252; repeat 9 255]) = Ret (s, outs) /\
  holds (st (dv s)) ex_answers 0 {| r_type := 0; r_len := 512; r_back := Nor 1024 |} (repeat 7 252 ++ repeat 9 255 ++ repeat 255 5) /\
  run ex_config s (select 0x69 0 0 ex_faults ++ concat (repeat (fetch 0x69 ex_answers ex_faults) 3)) = Ret (s2, outs2) /\
  received outs2 = repeat 7 252 ++ repeat 9 255 ++ repeat 255 5.
Proof.
  eexists _, _, _, _. split.
  { assert (forall v n, v < 256 -> bytes_ok (repeat v n)) as B.
    { intros v n Hv. apply Forall_forall. intros x Hx. apply repeat_spec in Hx. now subst x. }
    cbn [pieces]. rewrite !repeat_length. split; [lia|]. split; [now apply B|]. split; [right; reflexivity|].
    split; [lia|]. split; [now apply B|]. split; [now left|exact I]. }
  split; [intros k; cbn; repeat split; lia|].
  split; [vm_compute; reflexivity|]. split; [split; vm_compute; reflexivity|].
  split; vm_compute; reflexivity.
Qed.

(** Violated when a flash region is written from an offset other than 0: the sector erased is the one
    at the erase pointer, not the one written, and the data are lost; all is reported as done. *)
Theorem C63_jump_refuted : exists c s a f s' outs off, sane c /\ a < 128 /\ healthy f /\ off < 512 /\ off mod 4 = 0 /\
  run c s (select a 0 off f ++ push a f [1; 2; 3; 4]) = Ret (s', outs) /\ proto (dv s') = 0 /\ istat (dv s') = 0 /\
  img_read (flash (st (dv s'))) (1024 + off) 4 = [0; 0; 0; 0] /\ flash (st (dv s')) 1024 = 255.
Proof.
  exists ex_config, (bus_init ex_dev), 0x69, ex_faults. eexists _, _, 256.
  split; [apply ex_sane|]. split; [lia|]. split; [intros k; cbn; repeat split; lia|]. split; [lia|]. split; [reflexivity|].
  split; [vm_compute; reflexivity|]. split; [reflexivity|]. split; [reflexivity|]. split; vm_compute; reflexivity.
Qed.
Print Assumptions C63_jump_refuted.

(** Violated when the flash device programs fewer bytes than asked and says so: the number it returns
    is not compared, the rest of the piece is lost. *)
Theorem C63_short_write_refuted : exists c s a f s' outs, sane c /\ a < 128 /\
  (forall k, f_erase f k = (true, true) /\ f_size f k = true /\ f_write f k = (2%nat, true)) /\
  run c s (select a 0 0 f ++ push a f [1; 2; 3; 4]) = Ret (s', outs) /\ proto (dv s') = 0 /\ istat (dv s') = 0 /\
  img_read (flash (st (dv s'))) 1024 4 = [1; 2; 255; 255] /\ ic_off (dv s') = 4.
Proof.
  exists ex_config, (bus_init ex_dev), 0x69, {| f_erase := fun _ => (true, true); f_size := fun _ => true;
    f_write := fun _ => (2%nat, true); f_activate := Ok; f_auth := false |}. eexists _, _.
  split; [apply ex_sane|]. split; [lia|]. split; [intros k; cbn; auto|].
  split; [vm_compute; reflexivity|]. split; [reflexivity|]. split; [reflexivity|]. split; vm_compute; reflexivity.
Qed.
Print Assumptions C63_short_write_refuted.
