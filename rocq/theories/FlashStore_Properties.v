(** C07 and C08: the flash block store. *)
From Coq Require Import List NArith Lia Bool Arith ZifyBool ZifyNat ZifyN.
From Verif Require Import Base Flash_Base FlashUtil_Model FlashUtil_Proofs FlashUpdater_Model
  FlashUpdater_Proofs FlashStore_Model FlashStore_Spec FlashStore_Layout_Proofs FlashStore_Proofs
  FlashStore_Read_Proofs FlashStore_History_Proofs.
Import ListNotations.
Local Open Scope N_scope.

(** ** C07 *)

(** For every history of writes and erases, with any device faults in any of them: a block whose last
    successful operation was a write reads as the data written (however often other blocks were used or
    failed in between); one that was erased has no data; nothing outside the store's blocks changed.
    Before the history nothing is known about the flash. *)
Theorem C07_store_contents : forall sha encrypt decrypt p s m0 l,
  engines_ok sha encrypt decrypt -> fs_ok s (N.of_nat (extra_length p)) -> fs_overhead s = 0 ->
  Forall fs_op_ok (map snd l) ->
  let '(m, c) := fs_history (fs_step sha encrypt p s) m0 (fun _ => Unknown) l in
  forall f id buf, no_read_faults f -> id < fs_blocks s ->
  (forall d, c id = Stored d -> N.of_nat (length d) <= buf -> fs_read sha decrypt p f s m id buf = inl d) /\
  (c id = Erased -> fs_variable s = true ->
     fs_read sha decrypt p f s m id buf = inr FsNoData /\ has_data_stored f s m id = inl false) /\
  (forall x, ~ store_bytes s x -> m x = m0 x).
Proof.
  intros sha encrypt decrypt p s m0 l ENG OK NO HF.
  pose proof (history_spec sha encrypt decrypt ENG p s OK NO l m0 (fun _ => Unknown) HF (fun _ _ => I)) as H.
  destruct (fs_history (fs_step sha encrypt p s) m0 (fun _ => Unknown) l) as [m c]. destruct H as (H1 & H2).
  intros f id buf NF Hid. splits.
  - intros d E Hb. specialize (H1 id Hid). rewrite E in H1.
    eapply read_holds; eauto.
  - intros E V. specialize (H1 id Hid). rewrite E in H1. eapply read_erased; eauto.
  - intros x Hx. apply H2. intros C. apply Hx. eapply store_bytes_in; eauto.
Qed.
Print Assumptions C07_store_contents.

(** A call aimed at one block changes no byte of any other block, and no byte outside, whatever goes
    wrong in it. *)
Theorem C07_other_blocks_untouched : forall sha encrypt decrypt p s m f o i,
  engines_ok sha encrypt decrypt -> fs_ok s (N.of_nat (extra_length p)) -> fs_overhead s = 0 -> fs_op_ok o ->
  match o with OWrite j _ _ | OErase j => j = i | OEraseAll => False end ->
  forall x, (let a := block_start (fs_base s) (fs_block s) (fs_decreasing s) i in ~ (a <= x < a + fs_block s)) ->
  fst (fs_step sha encrypt p s m f o) x = m x.
Proof.
  intros sha encrypt decrypt p s m f o i ENG OK NO Ho Hi x Hx. cbn zeta in Hx.
  destruct (N.lt_ge_cases i (fs_blocks s)) as [L|L].
  - rewrite <- (block_addr_start s _ OK) in Hx by auto. destruct o as [j d iv|j|]; try contradiction; subst j; cbn [fs_step].
    + destruct Ho as (H1 & H2 & H3). pose proof (fs_write_cases sha encrypt p s OK NO f m i d iv H2 H3) as W.
      destruct (fs_write sha encrypt p f s m i d iv) as [m' r]. cbn [fst].
      destruct W as [(-> & _)|(_ & SZ & ct & extra & P & W)]; auto.
      destruct (protects_length sha encrypt decrypt ENG p s OK NO _ _ _ P) as (L1 & L2). destruct SZ as (Z1 & Z2 & Z3).
      pose proof (write_common_spec s _ OK f m i ct extra L) as S. rewrite <- W in S. destruct S as (S1 & _).
      apply (interrupted_frame s _ OK true m i ct extra m'); auto; try lia. eapply nonempty_length; eauto.
    + pose proof (fs_erase_spec p s OK NO f m i) as E. destruct (fs_erase f s m i) as [m' r]. cbn [fst].
      destruct E as [(_ & _ & E & _)|(-> & _)]; auto.
  - destruct o as [j d iv|j|]; try contradiction; subst j; cbn [fs_step].
    + unfold fs_write, verify_write_params. destruct (N.of_nat (length d) =? 0); [reflexivity|].
      destruct (N.leb_spec (fs_blocks s) i); [reflexivity|lia].
    + unfold fs_erase. destruct (N.leb_spec (fs_blocks s) i); [reflexivity|lia].
Qed.
Print Assumptions C07_other_blocks_untouched.

(** On a working device every acceptable write succeeds; data the store has no room for is refused. *)
Theorem C07_write_succeeds : forall sha encrypt decrypt p s m f id d iv,
  engines_ok sha encrypt decrypt -> fs_ok s (N.of_nat (extra_length p)) -> fs_overhead s = 0 ->
  works (fs_block s) f -> bytes_ok d -> bytes_ok iv -> length iv = IV_LENGTH ->
  snd (fs_write sha encrypt p f s m id d iv) = FsOk <-> id < fs_blocks s /\ acceptable s d.
Proof.
  intros sha encrypt decrypt p s m f id d iv ENG OK NO W Hd Hiv Hl. split.
  - intros H. pose proof (fs_write_cases sha encrypt p s OK NO f m id d iv Hiv Hl) as C.
    destruct (fs_write sha encrypt p f s m id d iv) as [m' r]. cbn [snd] in H. subst r.
    destruct C as [(_ & C)|(C1 & C2 & _)]; [discriminate|auto].
  - intros (Hid & A). eapply write_works; eauto.
Qed.
Print Assumptions C07_write_succeeds.

(** For devices that cannot program part of a page: the writes of one call never program the same page
    twice, and none of them crosses into another write's page. *)
Theorem C07_pages_written_once : forall s p data extra i j a b,
  (i < j)%nat -> fs_page s = Some p -> 4 < p -> data <> [] ->
  nth_error (store_writes s data extra) i = Some a -> nth_error (store_writes s data extra) j = Some b ->
  forall x y, fst a <= x < fst a + N.of_nat (length (snd a)) ->
              fst b <= y < fst b + N.of_nat (length (snd b)) -> x / p <> y / p.
Proof.
  intros s p data extra i j a b Hij HP H4 Hd Ha Hb x y Hx Hy.
  unfold store_writes in *. rewrite HP in *.
  assert (F: ForallOrdPairs (page_apart (N.to_nat p)) (buffered_writes s (N.to_nat p) data extra)).
  { apply buffered_once; auto; unfold header_bytes; destruct (fs_variable s); cbn [negb]; try destruct (fs_old_header s);
      cbn [length le16]; try lia; discriminate. }
  revert i j Hij Ha Hb F. generalize (buffered_writes s (N.to_nat p) data extra) as ws.
  induction ws as [|w ws IH]; intros i j Hij Ha Hb F; [destruct i; discriminate|].
  inversion F as [|? ? F1 F2]; subst. destruct j as [|j]; [lia|]. cbn [nth_error] in Hb.
  destruct i as [|i]; cbn [nth_error] in Ha; [|apply (IH i j); auto; lia].
  injection Ha as ->. rewrite Forall_forall in F1. specialize (F1 b (nth_error_In _ _ Hb)).
  specialize (F1 (N.to_nat x) (N.to_nat y) ltac:(lia) ltac:(lia)). intros E. apply F1.
  rewrite <- !N2Nat.inj_div. now rewrite E.
Qed.
Print Assumptions C07_pages_written_once.

(** Setting up a store: if the requested blocks do not overflow the address space, and the last block of
    a store that grows downwards fits the device, the store is set up properly, lies inside the device
    and has room for the requested data. *)
Theorem C07_init : forall base blocks data_length overhead extra decreasing variable old_header k device page s,
  let sector := 2 ^ k in
  2 <= k -> device < 2 ^ 32 -> extra mod 2 = 0 -> (forall p, page = Some p -> 4 < p) ->
  fs_init base blocks data_length overhead extra decreasing variable old_header sector device page = inl s ->
  fs_block s * blocks < 2 ^ 32 -> (decreasing = true -> base + fs_block s <= device) ->
  (decreasing = false -> base + fs_block s * blocks < 2 ^ 32) ->
  (old_header = true -> fs_max s < 42240) ->
  fs_ok s extra /\ fs_blocks s = blocks /\ data_length <= fs_max s /\ fs_overhead s = overhead /\
  (forall x, store_bytes s x -> x < device).
Proof.
  intros base blocks data_length overhead extra decreasing variable old_header k device page s sector
    Hk Hdev Hext Hpage H Hov Hdown Hup Hold.
  assert (SEC: 4 <= sector /\ sector mod 2 = 0).
  { unfold sector. replace k with (2 + (k - 2)) by lia. rewrite N.pow_add_r. change (2 ^ 2) with 4.
    assert (0 < 2 ^ (k - 2)) by (apply N.neq_0_lt_0, N.pow_nonzero; lia). split; [lia|].
    replace (4 * 2 ^ (k - 2)) with ((2 * 2 ^ (k - 2)) * 2) by lia. apply N.mod_mul. lia. }
  clearbody sector. destruct SEC as (S1 & S2). unfold fs_init in H.
  destruct (N.eqb_spec blocks 0); [discriminate|].
  destruct (N.ltb_spec MAX_DATA_SIZE data_length); [discriminate|].
  destruct (N.eqb_spec (base mod sector) 0) as [AL|]; [|discriminate]. cbn [negb] in H.
  destruct ((device <=? base) || _) eqn:BB; [discriminate|]. apply orb_false_iff in BB. destruct BB as (B1 & B2).
  apply N.leb_gt in B1.
  set (total := data_length + extra + (if variable then HEADER_LENGTH else 0)) in *.
  set (want := if sector <? total then total else sector) in *.
  assert (W: total <= want /\ sector <= want). { unfold want. destruct (N.ltb_spec sector total); lia. }
  set (block := region_base (want + (sector - 1)) sector) in *.
  assert (BL: want <= block /\ block mod sector = 0 /\ block mod 2 = 0).
  { unfold block. rewrite region_base_eq by lia. set (q := (want + (sector - 1)) / sector).
    assert (want + (sector - 1) < sector * (q + 1)).
    { unfold q. rewrite N.add_1_r. apply N.mul_succ_div_gt. lia. }
    splits.
    - lia.
    - rewrite N.mul_comm. apply N.mod_mul. lia.
    - rewrite N.mul_mod, S2 by lia. reflexivity. }
  clearbody block. destruct BL as (BL1 & BL2 & BL3).
  destruct (if decreasing then _ else _) eqn:INS; [discriminate|].
  destruct (variable && _) eqn:TL; [discriminate|]. injection H as <-.
  cbn [fs_block fs_blocks fs_max fs_base fs_decreasing fs_variable fs_sector fs_old_header fs_page fs_overhead] in *.
  set (max := if variable then block - HEADER_LENGTH - extra else data_length) in *.
  assert (SZ: (if variable then HEADER_LENGTH else 0) + max + extra <= block).
  { clear - BL1 W. unfold max, total in *. clearbody want. destruct variable; lia. }
  assert (MX: variable = true -> max < 65535).
  { intros V. rewrite V in TL. cbn in TL. apply N.ltb_ge in TL. unfold MAX_DATA_SIZE in TL.
    assert (max <> 65535); [|lia]. intros E. unfold max in E. rewrite V in E.
    assert (block = 65535 + 4 + extra) as EB by (clear - E; unfold HEADER_LENGTH in *; lia).
    rewrite EB in BL3. rewrite N.add_mod, Hext in BL3 by lia. discriminate. }
  assert (DL: data_length <= max). { clear - BL1 W. unfold max, total in *. clearbody want. destruct variable; lia. }
  assert (UP: decreasing = false -> base + block * blocks <= device).
  { intros D. rewrite D in INS. apply N.ltb_ge in INS. rewrite (w32_small (block * blocks)) in INS by auto.
    rewrite w32_small in INS by auto. exact INS. }
  assert (DN: decreasing = true -> block * (blocks - 1) <= base).
  { intros D. rewrite D in INS. apply N.ltb_ge in INS. rewrite w32_small in INS; [exact INS|].
    destruct (mul_below 0 block blocks ltac:(lia)) as (_ & _ & M). clear - M Hov. lia. }
  splits; auto.
  - constructor; cbn [fs_block fs_blocks fs_max fs_base fs_decreasing fs_variable fs_sector fs_old_header fs_page]; auto.
    + split; [clear - BL1 W S1; lia|auto].
    + clear - n; lia.
    + intros D. specialize (UP D). clear - UP Hdev Hov. lia.
    + intros D. specialize (DN D). specialize (Hdown D). clear - DN Hdown Hov Hdev. lia.
    + destruct variable; [specialize (MX eq_refl); clear - MX; lia|]. unfold max, MAX_DATA_SIZE in *. clear - H0; lia.
    + intros p0 E. apply Hpage. destruct (match page with Some _ => _ | None => _ end); [auto|discriminate].
  - intros x (id & Hid & Hx). cbn [fs_block fs_blocks fs_base fs_decreasing] in *. unfold block_start in Hx.
    clear - Hdown UP Hid Hx. destruct decreasing; [specialize (Hdown eq_refl); lia|specialize (UP eq_refl)].
    assert (id * block + block <= block * blocks); [|lia].
    replace (id * block + block) with (block * (id + 1)) by lia. apply N.mul_le_mono_l. lia.
Qed.
Print Assumptions C07_init.

(** Without those assumptions the set-up is accepted although the blocks overlap or lie beyond the device:
    the products are computed in 32 bits ... *)
Theorem C07_init_overflow_refuted : exists blocks device s,
  fs_init 0 blocks 10 0 0 false true false 4096 device None = inl s /\
  device <= block_addr s 16 /\ (exists id, id < blocks /\ id <> 0 /\ block_addr s id = block_addr s 0).
Proof.
  exists (2 ^ 20 + 1), 65536. eexists. split; [vm_compute; reflexivity|]. split; [vm_compute; discriminate|].
  exists (2 ^ 20). vm_compute. repeat split; congruence.
Qed.
Print Assumptions C07_init_overflow_refuted.

(** ... and for blocks of more than one sector growing downwards the first block is never checked
    against the device size. *)
Theorem C07_init_decreasing_refuted : exists base device s,
  fs_init base 2 5000 0 0 true true false 4096 device None = inl s /\
  device < block_addr s 0 + fs_block s.
Proof. exists 61440, 65536. eexists. split; [vm_compute; reflexivity|]. vm_compute. reflexivity. Qed.
Print Assumptions C07_init_decreasing_refuted.

Lemma img_read_const : forall (m : image) v a n, (forall x, a <= x -> m x = v) -> img_read m a n = repeat v n.
Proof.
  intros m v a n H. apply (nth_ext _ _ 0 0); [now rewrite length_img_read, repeat_length|].
  intros i Hi. rewrite length_img_read in Hi. rewrite nth_img_read by auto. rewrite H by lia.
  symmetry. rewrite nth_indep with (d' := v) by now rewrite repeat_length. apply nth_repeat.
Qed.

(** Stores that use the old header (the length alone): data of more than 42239 bytes can be misread,
    because the high byte of the length is taken for the marker of the current header. *)
Theorem C07_old_header_refuted : exists s m d,
  fs_init 0 1 65000 0 0 false true true 65536 65536 None = inl s /\
  N.of_nat (length d) <= fs_max s /\ d <> [] /\
  img_read m (block_addr s 0) (length (le16 (N.of_nat (length d)) ++ d)) = le16 (N.of_nat (length d)) ++ d /\
  fs_read (fun _ => []) (fun _ _ _ => None) PNone (mk_faults (fun _ => false) (fun _ => false) (fun _ => None)) s m 0 65536
    = inl [].
Proof.
  set (m := fun x : N => if x =? 0 then 10 else if x =? 1 then 165 else 0).
  assert (L: forall k, N.of_nat (length (repeat 0 (N.to_nat k))) = k) by (intros; rewrite repeat_length; lia).
  eexists. exists m, (repeat 0 (N.to_nat 42250)). split; [vm_compute; reflexivity|].
  rewrite L. splits.
  - vm_compute. discriminate.
  - intros C. apply (f_equal (fun l => N.of_nat (length l))) in C. rewrite L in C. discriminate.
  - change (le16 42250) with [10; 165]. rewrite app_length. cbn [length]. rewrite repeat_length.
    generalize (N.to_nat 42250). intros n. change (block_addr _ 0) with 0.
    rewrite (img_read_app m 0 2 n). change (img_read m 0 2) with [10; 165]. f_equal.
    apply img_read_const. intros x Hx. unfold m.
    destruct (N.eqb_spec x 0); [lia|]. destruct (N.eqb_spec x 1); [lia|reflexivity].
  - vm_compute. reflexivity.
Qed.
Print Assumptions C07_old_header_refuted.

(** ** C08 *)

(** A read of a store with digests that succeeds returns bytes from flash whose digest is stored right
    behind them; one of an encrypted store returns what its authenticated decryption accepted. *)
Theorem C08_read_checked : forall sha decrypt p f s m id buf d,
  fs_read sha decrypt p f s m id buf = inl d ->
  exists a,
    match p with
    | PNone => img_read m a (length d) = d
    | PHash => img_read m a (length d) = d /\ img_read m (a + N.of_nat (length d)) HASH_LENGTH = sha d
    | PEncrypted => exists n, let b := a + N.of_nat n in
        decrypt (img_read m b IV_LENGTH) (img_read m a n) (img_read m (b + N.of_nat IV_LENGTH) TAG_LENGTH) = Some d
    end.
Proof.
  intros sha decrypt p f s m id buf d H. unfold fs_read in H.
  destruct (read_common f s m id buf 0 (extra_length p)) as [[x y]|] eqn:E; [|discriminate].
  apply read_common_data in E. destruct E as (a & X & Y). exists a. destruct p.
  - injection H as <-. auto.
  - destruct (list_eq_dec N.eq_dec (sha x) y) as [Q|]; [|discriminate]. injection H as <-. split; auto.
    cbn [extra_length] in Y. congruence.
  - exists (length x). cbn zeta. destruct (decrypt _ _ _) as [d0|] eqn:D; [|discriminate]. injection H as <-.
    rewrite <- X. rewrite <- D. cbn [extra_length] in Y. rewrite img_read_app in Y. subst y.
    rewrite firstn_app_le, firstn_all2 by (rewrite length_img_read; auto).
    rewrite skipn_app_ge by (rewrite length_img_read; auto). now rewrite length_img_read, Nat.sub_diag.
Qed.
Print Assumptions C08_read_checked.

(** Power loss at any point of a write to a store of variable-length data, with or without protection:
    afterwards the block reads as before, has no data, or reads as the complete new data.  Power may
    also be lost in the middle of a single device write ([torn]) if the store does not buffer pages and
    its blocks hold less than 65280 bytes. *)
Theorem C08_power_loss : forall sha encrypt decrypt p s torn f m m' id d iv buf,
  engines_ok sha encrypt decrypt -> fs_ok s (N.of_nat (extra_length p)) -> fs_overhead s = 0 -> fs_variable s = true ->
  id < fs_blocks s -> acceptable s d -> bytes_ok d -> bytes_ok iv -> length iv = IV_LENGTH ->
  (torn = true -> fs_page s = None /\ fs_max s < 65280) ->
  interrupted torn m (fs_write_ops sha encrypt p s id d iv) m' ->
  no_read_faults f -> N.of_nat (length d) <= buf ->
  fs_read sha decrypt p f s m' id buf = fs_read sha decrypt p f s m id buf \/
  fs_read sha decrypt p f s m' id buf = inr FsNoData \/
  fs_read sha decrypt p f s m' id buf = inl d.
Proof. intros. eapply interrupted_fs_read with (torn := torn); eauto. Qed.
Print Assumptions C08_power_loss.

(** The device operations in question are those of the code: whatever faults occur in a write, the flash
    is left as by an interruption of that sequence; and when it reports success, as after all of it. *)
Theorem C08_write_operations : forall sha encrypt p s f m id d iv,
  fs_ok s (N.of_nat (extra_length p)) -> fs_overhead s = 0 -> bytes_ok iv -> length iv = IV_LENGTH ->
  let '(m', r) := fs_write sha encrypt p f s m id d iv in
  (m' = m /\ refused r = true) \/
  (id < fs_blocks s /\ acceptable s d /\ interrupted true m (fs_write_ops sha encrypt p s id d iv) m').
Proof. intros. now apply fs_write_interrupted. Qed.
Print Assumptions C08_write_operations.

(** So a write that fails, in whatever way, also leaves the old data, no data or the new data. *)
Theorem C08_failed_write : forall sha encrypt decrypt p s ff f m id d iv buf,
  engines_ok sha encrypt decrypt -> fs_ok s (N.of_nat (extra_length p)) -> fs_overhead s = 0 ->
  fs_variable s = true -> fs_max s < 65280 -> fs_page s = None ->
  bytes_ok d -> bytes_ok iv -> length iv = IV_LENGTH -> no_read_faults f -> N.of_nat (length d) <= buf ->
  let m' := fst (fs_write sha encrypt p ff s m id d iv) in
  fs_read sha decrypt p f s m' id buf = fs_read sha decrypt p f s m id buf \/
  fs_read sha decrypt p f s m' id buf = inr FsNoData \/
  fs_read sha decrypt p f s m' id buf = inl d.
Proof.
  intros sha encrypt decrypt p s ff f m id d iv buf ENG OK NO V MX PG Hd Hiv Hl NF Hb. cbn zeta.
  pose proof (fs_write_interrupted sha encrypt p s OK NO ff m id d iv Hiv Hl) as W.
  destruct (fs_write sha encrypt p ff s m id d iv) as [m' r]. cbn [fst].
  destruct W as [(-> & _)|(W1 & W2 & W3)]; auto.
  eapply C08_power_loss with (torn := true); eauto; lia.
Qed.
Print Assumptions C08_failed_write.

(** For blocks of 65280 bytes and more a torn header write is not detected: the block then reads as data
    of a length that was never written. *)
Theorem C08_torn_header_refuted : exists s m m' d,
  fs_init 0 1 65000 0 0 false true false 65536 65536 None = inl s /\ fs_max s = 65532 /\ acceptable s d /\
  interrupted true m (device_ops s 0 d []) m' /\
  let f := mk_faults (fun _ => false) (fun _ => false) (fun _ => None) in
  fs_read (fun _ => []) (fun _ _ _ => None) PNone f s m 0 65536 = inr FsNoData /\
  exists x, fs_read (fun _ => []) (fun _ _ _ => None) PNone f s m' 0 65536 = inl x /\ N.of_nat (length x) = 65281.
Proof.
  set (m := fun _ : N => 255).
  set (m' := nor_write (nor_write (nor_erase m 0 65536) 4 [7]) 0 [4; 165; 1]).
  eexists. exists m, m', [7]. split; [vm_compute; reflexivity|]. split; [reflexivity|].
  splits.
  - split; [discriminate|]. split; [vm_compute; discriminate|discriminate].
  - exists 2%nat. split; [vm_compute; lia|]. right. split; auto. exists 0, [4; 165; 1; 0], 3%nat.
    split; [vm_compute; reflexivity|]. intros x. reflexivity.
  - cbn zeta. split; [vm_compute; reflexivity|]. unfold fs_read, read_common. cbn [fs_blocks fs_variable negb andb].
    match goal with |- context[read_header ?f ?s m' ?a] =>
      assert (R: read_header f s m' a = inl (4, 65281)) by (vm_compute; reflexivity) end.
    rewrite R. cbn [f_read extra_length Nat.eqb negb andb N.eqb].
    eexists. split; [reflexivity|]. rewrite length_img_read, N2Nat.id. reflexivity.
Qed.
Print Assumptions C08_torn_header_refuted.

(** Concrete instances: small engines that meet the requirements, a store of three downward-growing
    blocks with digests, and a history with failures in it. *)
Definition ex_sha (d : list N) : list N := firstn 32 (map (fun b => b mod 256) d ++ repeat 7 32).
Definition ex_encrypt (iv d : list N) : list N * list N := (map (fun b => b mod 256) d, repeat 9 16).
Definition ex_decrypt (iv d tag : list N) : option (list N) :=
  if list_eq_dec N.eq_dec tag (repeat 9 16) then Some d else None.

Example engines_example : engines_ok ex_sha ex_encrypt ex_decrypt.
Proof.
  assert (M: forall d, bytes_ok (map (fun b => b mod 256) d)).
  { intros d. apply Forall_forall. intros x Hx. apply in_map_iff in Hx. destruct Hx as (y & <- & _).
    unfold byte_ok. apply N.mod_lt. lia. }
  constructor.
  - intros d. unfold ex_sha. split.
    + rewrite firstn_length, app_length, repeat_length. unfold HASH_LENGTH. lia.
    + apply Forall_firstn. apply Forall_app. split; [apply M|]. apply Forall_forall. intros x Hx.
      apply repeat_spec in Hx. subst. reflexivity.
  - intros iv d. unfold ex_encrypt. cbn [fst snd]. rewrite map_length. splits; auto.
    apply Forall_forall. intros x Hx. apply repeat_spec in Hx. subst. reflexivity.
  - intros iv d Hd. unfold ex_decrypt, ex_encrypt. cbn [fst snd]. destruct (list_eq_dec _ _ _); [|congruence].
    f_equal. rewrite <- (map_id d) at 2. apply map_ext_in. intros x Hx. unfold bytes_ok in Hd. rewrite Forall_forall in Hd.
    specialize (Hd x Hx). unfold byte_ok in Hd. now apply N.mod_small.
Qed.

Definition ex_store : fstore := mk_fs 192 3 true true 28 0 64 false None 64.
Definition ex_good : faults := mk_faults (fun _ => false) (fun _ => false) (fun _ => Some 64%nat).
Definition ex_bad : faults := mk_faults (fun _ => false) (fun _ => false) (fun a => Some (if a =? 132 then 1%nat else 64%nat)).
Definition ex_iv : list N := repeat 3 12.
Definition ex_history : list (faults * fs_op) :=
  [(ex_good, OWrite 0 [1; 2; 3] ex_iv); (ex_good, OWrite 1 [4; 5] ex_iv); (ex_good, OWrite 2 [6] ex_iv);
   (ex_bad, OWrite 1 [7; 8; 9] ex_iv); (ex_good, OErase 2); (ex_good, OWrite 3 [1] ex_iv);
   (ex_good, OWrite 0 [10; 11] ex_iv)].

Example C07_example :
  fs_init 192 3 20 0 32 true true false 64 4096 None = inl ex_store /\
  fs_ok ex_store (N.of_nat (extra_length PHash)) /\ Forall fs_op_ok (map snd ex_history) /\
  works (fs_block ex_store) ex_good /\ acceptable ex_store [10; 11] /\
  (let '(m, c) := fs_history (fs_step ex_sha ex_encrypt PHash ex_store) (fun _ => 0) (fun _ => Unknown) ex_history in
   c 0 = Stored [10; 11] /\ c 1 = Unknown /\ c 2 = Erased /\
   fs_read ex_sha ex_decrypt PHash ex_good ex_store m 0 28 = inl [10; 11] /\
   fs_read ex_sha ex_decrypt PHash ex_good ex_store m 2 28 = inr FsNoData).
Proof.
  splits.
  - vm_compute. reflexivity.
  - constructor; cbn; try lia; try discriminate; auto. all: vm_compute; splits; try congruence; auto.
  - repeat constructor.
  - split; [intros x; reflexivity|]. split; [intros x; reflexivity|]. intros x. exists 64%nat. split; [reflexivity|vm_compute; discriminate].
  - split; [discriminate|]. split; [vm_compute; discriminate|discriminate].
  - vm_compute. splits; reflexivity.
Qed.

(** A write interrupted after the data and in the middle of the digest. *)
Example C08_example :
  interrupted true (fun _ => 0) (fs_write_ops ex_sha ex_encrypt PHash ex_store 1 [4; 5] ex_iv)
    (nor_write (nor_write (nor_erase (fun _ => 0) 128 64) 132 [4; 5]) 134 [4; 5; 7]) /\
  fs_read ex_sha ex_decrypt PHash ex_good ex_store
    (nor_write (nor_write (nor_erase (fun _ => 0) 128 64) 132 [4; 5]) 134 [4; 5; 7]) 1 28 = inr FsNoData.
Proof.
  split; [|vm_compute; reflexivity]. exists 2%nat. split; [vm_compute; lia|]. right. split; auto.
  exists 134, (ex_sha [4; 5]), 3%nat. split; [vm_compute; reflexivity|]. intros x. reflexivity.
Qed.
