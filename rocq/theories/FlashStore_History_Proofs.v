(** Histories of calls on the block store. *)
From Coq Require Import List NArith Lia Bool Arith ZifyBool ZifyNat ZifyN.
From Verif Require Import Base Flash_Base FlashUtil_Model FlashUtil_Proofs FlashUpdater_Model
  FlashUpdater_Proofs FlashStore_Model FlashStore_Spec FlashStore_Layout_Proofs FlashStore_Proofs
  FlashStore_Read_Proofs.
Import ListNotations.
Local Open Scope N_scope.

Section History.
Variable sha : list N -> list N.
Variable encrypt : list N -> list N -> list N * list N.
Variable decrypt : list N -> list N -> list N -> option (list N).
Hypothesis ENG : engines_ok sha encrypt decrypt.
Variable p : protection.
Variable s : fstore.
Hypothesis OK : fs_ok s (N.of_nat (extra_length p)).
Hypothesis NOVER : fs_overhead s = 0.

(** What is put in flash for [d]. *)
Definition protects (d ct extra : list N) : Prop :=
  match p with
  | PNone => ct = d /\ extra = []
  | PHash => ct = d /\ extra = sha d
  | PEncrypted => exists iv, length iv = IV_LENGTH /\ bytes_ok iv /\ ct = fst (encrypt iv d) /\ extra = iv ++ snd (encrypt iv d)
  end.

Lemma protects_length : forall d ct extra, protects d ct extra ->
  length ct = length d /\ length extra = extra_length p.
Proof.
  intros d ct extra H. unfold protects, extra_length in *. destruct ENG. destruct p.
  - destruct H as (-> & ->). auto.
  - destruct H as (-> & ->). split; auto. apply sha_ok.
  - destruct H as (iv & L & B & -> & ->). destruct (enc_ok iv d) as (E1 & E2 & E3 & E4).
    split; auto. rewrite app_length. lia.
Qed.

Lemma header_bytes_ok : forall n, bytes_ok (header_bytes s n).
Proof.
  clear. intros n. unfold header_bytes. destruct (fs_variable s); [|constructor]. cbn [negb].
  assert (L: bytes_ok (le16 n)) by (repeat constructor; unfold byte_ok; apply N.mod_lt; lia).
  destruct (fs_old_header s); auto. constructor; [reflexivity|]. constructor; [reflexivity|]. exact L.
Qed.

Lemma protects_bytes : forall d ct extra, protects d ct extra -> bytes_ok d ->
  bytes_ok (stream s ct extra).
Proof.
  intros d ct extra H Hb. unfold stream. apply bytes_ok_app. split; [apply header_bytes_ok|].
  apply bytes_ok_app. unfold protects in H. destruct ENG. destruct p.
  - destruct H as (-> & ->). split; auto. constructor.
  - destruct H as (-> & ->). split; auto. apply sha_ok.
  - destruct H as (iv & L & B & -> & ->). destruct (enc_ok iv d) as (E1 & E2 & E3 & E4).
    split; auto. apply bytes_ok_app. auto.
Qed.

Notation size_ok := (acceptable s).

Definition holds (m : image) (id : N) (c : content) : Prop :=
  match c with
  | Unknown => True
  | Stored d => size_ok d /\ bytes_ok d /\ exists ct extra, protects d ct extra /\
      img_read m (block_addr s id) (length (stream s ct extra)) = stream s ct extra
  | Erased => blank_on m (block_addr s id) (fs_block s)
  end.

Lemma holds_frame : forall m m' id c, id < fs_blocks s -> (forall x, in_block s id x -> m' x = m x) ->
  holds m id c -> holds m' id c.
Proof.
  intros m m' id c Hid Hx H. destruct c as [|d|]; cbn in *; auto.
  - destruct H as (SZ & BY & ct & extra & P & R). split; auto. split; auto. exists ct, extra. split; auto.
    destruct (protects_length _ _ _ P) as (L1 & L2). destruct SZ as (_ & SZ & _).
    eapply read_stored_frame; eauto; try lia; try congruence.
  - intros x Hi. rewrite Hx by exact Hi. apply H. exact Hi.
Qed.

Lemma nonempty_length : forall (a b : list N), length a = length b -> b <> [] -> a <> [].
Proof. clear. intros a b H Hb ->. destruct b; [congruence|discriminate]. Qed.

Lemma verify_params_spec : forall id n,
  verify_write_params s id n = FsOk \/ refused (verify_write_params s id n) = true.
Proof.
  clear. intros. unfold verify_write_params. repeat (destruct (_ : bool); auto); destruct (_ =? _), (_ <=? _), (_ && _), (_ <? _); auto.
Qed.

Lemma verify_params_ok : forall id d, verify_write_params s id (N.of_nat (length d)) = FsOk ->
  id < fs_blocks s /\ size_ok d.
Proof.
  intros id d H. unfold verify_write_params in H. rewrite NOVER, N.sub_0_r in H.
  destruct (N.eqb_spec (N.of_nat (length d)) 0); [discriminate|].
  destruct (N.leb_spec (fs_blocks s) id); [discriminate|].
  destruct (fs_variable s) eqn:V; cbn [negb andb] in H.
  - destruct (N.ltb_spec (fs_max s) (N.of_nat (length d))); [discriminate|]. split; auto.
    split; [|split]; auto; [intros ->; cbn in *; congruence|congruence].
  - destruct (N.eqb_spec (N.of_nat (length d)) (fs_max s)); [|discriminate]. cbn [negb andb] in H. split; auto.
    split; [|split]; auto; [intros ->; cbn in *; congruence|lia].
Qed.

(** Every write is a write_common of some protected form of the data. *)
Lemma fs_write_cases : forall f m id d iv, bytes_ok iv -> length iv = IV_LENGTH ->
  let '(m', r) := fs_write sha encrypt p f s m id d iv in
  (m' = m /\ refused r = true) \/
  (id < fs_blocks s /\ size_ok d /\ exists ct extra, protects d ct extra /\ (m', r) = write_common f s m id ct extra).
Proof.
  intros f m id d iv Hiv Hl. unfold fs_write.
  destruct (verify_write_params s id (N.of_nat (length d))) eqn:E;
    [|left; split; [reflexivity|]; pose proof (verify_params_spec id (N.of_nat (length d))) as V; rewrite E in V;
      solve [destruct V; [discriminate|assumption]] ..].
  destruct (verify_params_ok _ _ E) as (Hid & SZ). destruct p eqn:P.
  - destruct (write_common f s m id d []) as [m' r] eqn:W. right. splits; auto. exists d, []. split; auto. unfold protects. rewrite P. auto.
  - destruct (write_common f s m id d (sha d)) as [m' r] eqn:W. right. splits; auto. exists d, (sha d). split; auto. unfold protects. rewrite P. auto.
  - destruct (encrypt iv d) as [enc tag] eqn:EN.
    destruct (write_common f s m id enc (iv ++ tag)) as [m' r] eqn:W. right. splits; auto. exists enc, (iv ++ tag).
    split; auto. unfold protects. rewrite P. exists iv. rewrite EN. auto.
Qed.

(** Erasing a block. *)
Lemma fs_erase_spec : forall f m id,
  let '(m', r) := fs_erase f s m id in
  (id < fs_blocks s /\ refused r = false /\ (forall x, ~ in_block s id x -> m' x = m x) /\
     (r = FsOk -> blank_on m' (block_addr s id) (fs_block s))) \/
  (m' = m /\ refused r = true).
Proof.
  intros f m id. unfold fs_erase. destruct (N.leb_spec (fs_blocks s) id) as [L|L]; [right; auto|].
  unfold erase_and_verify.
  pose proof (erase_block s _ OK f m id L) as E.
  destruct (erase_region (f_erase f) (fs_sector s) m (block_addr s id) (N.to_nat (fs_block s))) as [m1 r]. cbn zeta in E.
  destruct E as (j & J1 & J2 & J3 & J4 & _).
  assert (BS := block_sectors s _ OK).
  assert (FR: forall x, ~ in_block s id x -> m1 x = m x).
  { intros x Hx. rewrite J2, erased_prefix. apply nor_erase_out. unfold in_block in Hx.
    assert (N.of_nat j * fs_sector s <= fs_block s) by (rewrite <- BS; apply N.mul_le_mono_r; lia). lia. }
  destruct J4 as [-> | ->]; left.
  - splits; auto.
    + unfold blank_check. destruct (check_region _ _ _ _ _); reflexivity.
    + intros _ x Hx. rewrite (J3 eq_refl) in J2. rewrite J2, erased_prefix, BS. now apply nor_erase_in.
  - splits; auto. discriminate.
Qed.

Definition in_store (x : N) : Prop := exists id, id < fs_blocks s /\ in_block s id x.

Lemma fs_erase_all_spec : forall f m,
  let '(m', r) := fs_erase_all f s m in
  refused r = false /\ (forall x, ~ in_store x -> m' x = m x) /\
  (r = FsOk -> forall id, id < fs_blocks s -> blank_on m' (block_addr s id) (fs_block s)).
Proof.
  intros f m. unfold fs_erase_all.
  set (a0 := w32 _). destruct (ok_block _ _ OK) as (B1 & B2). pose proof (ok_count _ _ OK) as CNT.
  pose proof (ok_sector _ _ OK) as SS.
  assert (TOT: fs_block s * fs_blocks s < 2 ^ 32).
  { destruct (fs_decreasing s) eqn:D; [apply (ok_down _ _ OK D)|apply (ok_up _ _ OK D)]. }
  rewrite (w32_small (fs_block s * fs_blocks s)) by auto.
  assert (A0: a0 = if fs_decreasing s then fs_base s - fs_block s * (fs_blocks s - 1) else fs_base s).
  { unfold a0. destruct (fs_decreasing s) eqn:D.
    - destruct (ok_down _ _ OK D) as (D1 & D2 & D3). rewrite (w32_small (fs_block s * (fs_blocks s - 1))) by nia.
      unfold w32. replace (fs_base s + (2 ^ 32 - fs_block s * (fs_blocks s - 1)))
        with (fs_base s - fs_block s * (fs_blocks s - 1) + 1 * 2 ^ 32) by nia.
      rewrite N.mod_add by lia. apply N.mod_small. lia.
    - destruct (ok_up _ _ OK D) as (U1 & U2). rewrite N.sub_0_r. unfold w32.
      replace (fs_base s + 2 ^ 32) with (fs_base s + 1 * 2 ^ 32) by lia. rewrite N.mod_add by lia. apply N.mod_small. nia. }
  assert (AL: a0 mod fs_sector s = 0).
  { rewrite A0. pose proof (ok_aligned _ _ OK) as AL. destruct (fs_decreasing s) eqn:D; auto.
    destruct (ok_down _ _ OK D) as (D1 & _).
    apply N.mod_divide in AL; [|lia]. apply N.mod_divide in B2; [|lia]. apply N.mod_divide; [lia|].
    destruct AL as (q1 & Q1). destruct B2 as (q2 & Q2). exists (q1 - q2 * (fs_blocks s - 1)).
    rewrite Q1. rewrite Q2 at 1. rewrite N.mul_sub_distr_r. f_equal. lia. }
  assert (SUB: forall id, id < fs_blocks s -> a0 <= block_addr s id /\
      block_addr s id + fs_block s <= a0 + fs_block s * fs_blocks s).
  { intros id Hid. rewrite (block_addr_start s _ OK) by auto. unfold block_start. rewrite A0.
    destruct (fs_decreasing s) eqn:D; [destruct (ok_down _ _ OK D) as (D1 & _)|]; nia. }
  assert (COV: forall x, a0 <= x < a0 + fs_block s * fs_blocks s -> in_store x).
  { intros x Hx. set (q := (x - a0) / fs_block s).
    assert (Q1: q * fs_block s <= x - a0). { rewrite N.mul_comm. apply N.mul_div_le. lia. }
    assert (Q2: x - a0 < (q + 1) * fs_block s).
    { rewrite N.mul_comm, N.add_1_r. apply N.mul_succ_div_gt. lia. }
    assert (Q3: q < fs_blocks s). { apply N.div_lt_upper_bound; lia. }
    clearbody q. unfold in_store, in_block. destruct (fs_decreasing s) eqn:D.
    - destruct (ok_down _ _ OK D) as (D1 & _). exists (fs_blocks s - 1 - q). split; [lia|].
      rewrite (block_addr_start s _ OK) by lia. unfold block_start. rewrite D. subst a0.
      assert ((fs_blocks s - 1 - q) * fs_block s = fs_block s * (fs_blocks s - 1) - q * fs_block s) as E1
        by (rewrite N.mul_sub_distr_r, N.mul_comm; reflexivity).
      assert (q * fs_block s <= fs_block s * (fs_blocks s - 1)) as E2
        by (rewrite (N.mul_comm q); apply N.mul_le_mono_l; lia).
      rewrite E1. rewrite N.mul_add_distr_r in Q2.
      set (u := q * fs_block s) in *. set (w := fs_block s * (fs_blocks s - 1)) in *. clearbody u w. lia.
    - exists q. split; [auto|]. rewrite (block_addr_start s _ OK) by lia. unfold block_start. rewrite D. nia. }
  set (c := N.to_nat (fs_block s * fs_blocks s / fs_sector s)).
  assert (C: N.of_nat c * fs_sector s = fs_block s * fs_blocks s).
  { unfold c. rewrite N2Nat.id. pose proof (N.div_mod (fs_block s * fs_blocks s) (fs_sector s) ltac:(lia)) as DM.
    rewrite N.mul_mod, B2, N.mul_0_l, N.mod_0_l in DM by lia. lia. }
  unfold erase_and_verify, erase_region. rewrite N2Nat.id, <- C.
  pose proof (erase_aligned (f_erase f) c (S (N.to_nat (N.of_nat c * fs_sector s))) (fs_sector s) m a0 ltac:(lia) AL ltac:(lia)) as E.
  destruct (erase_loop (f_erase f) (S (N.to_nat (N.of_nat c * fs_sector s))) (fs_sector s) m a0 (N.of_nat c * fs_sector s)) as [m1 r].
  destruct E as (j & J1 & J2 & J3 & J4 & _).
  assert (FR: forall x, ~ in_store x -> m1 x = m x).
  { intros x Hx. rewrite J2, erased_prefix. apply nor_erase_out.
    assert (N.of_nat j * fs_sector s <= fs_block s * fs_blocks s) by (rewrite <- C; apply N.mul_le_mono_r; lia).
    destruct (N.lt_ge_cases x a0); [lia|].
    destruct (N.lt_ge_cases x (a0 + fs_block s * fs_blocks s)); [exfalso; apply Hx, COV; lia|lia]. }
  destruct J4 as [-> | ->].
  - splits; auto.
    + unfold blank_check. destruct (check_region _ _ _ _ _); reflexivity.
    + intros _ id Hid x Hx. rewrite (J3 eq_refl) in J2. rewrite J2, erased_prefix, C. apply nor_erase_in.
      specialize (SUB id Hid). lia.
  - splits; auto. discriminate.
Qed.

(** One call. *)
Lemma step_spec : forall f m c o, fs_op_ok o -> (forall id, id < fs_blocks s -> holds m id (c id)) ->
  let '(m', r) := fs_step sha encrypt p s m f o in
  (forall id, id < fs_blocks s -> holds m' id (spec_step c o r id)) /\
  (forall x, ~ in_store x -> m' x = m x).
Proof.
  intros f m c o Hop HI. destruct o as [i d iv|i|]; cbn [fs_step].
  - destruct Hop as (Hd & Hiv & Hl). pose proof (fs_write_cases f m i d iv Hiv Hl) as W.
    destruct (fs_write sha encrypt p f s m i d iv) as [m' r].
    destruct W as [(-> & R)|(Hi & SZ & ct & extra & P & W)].
    + split; auto. intros id Hid. cbn. destruct (i =? id); auto. unfold know. rewrite R. destruct r; auto; discriminate.
    + destruct (protects_length _ _ _ P) as (L1 & L2).
      pose proof (write_common_spec s _ OK f m i ct extra Hi) as S. rewrite <- W in S. destruct S as (S1 & S2 & S3).
      destruct SZ as (Z1 & Z2 & Z3).
      assert (FR: forall x, ~ in_block s i x -> m' x = m x).
      { apply (interrupted_frame s _ OK true m i ct extra m'); auto; try lia; try congruence; eapply nonempty_length; eauto. }
      split.
      * intros id Hid. cbn. destruct (N.eqb_spec i id) as [<-|NE].
        -- unfold know. rewrite S3. destruct r; try exact I. cbn. split; [split; auto|]. split; auto.
           exists ct, extra. split; auto. apply (completed_stream s _ OK m); auto.
           ++ eapply nonempty_length; eauto.
           ++ lia.
           ++ eapply protects_bytes; eauto.
        -- eapply holds_frame; [auto| |apply HI; auto]. intros x Hx. apply FR. intros Hx2.
           eapply (blocks_disjoint s _ OK i id); eauto.
      * intros x Hx. apply FR. intros Hb. apply Hx. exists i. auto.
  - pose proof (fs_erase_spec f m i) as E. destruct (fs_erase f s m i) as [m' r].
    destruct E as [(Hi & R & FR & BL)|(-> & R)].
    + split.
      * intros id Hid. cbn. destruct (N.eqb_spec i id) as [<-|NE].
        -- unfold know. rewrite R. destruct r; try exact I. now apply BL.
        -- eapply holds_frame; [auto| |apply HI; auto]. intros x Hx. apply FR. intros Hx2.
           eapply (blocks_disjoint s _ OK i id); eauto.
      * intros x Hx. apply FR. intros Hb. apply Hx. exists i. auto.
    + split; auto. intros id Hid. cbn. destruct (i =? id); auto. unfold know. rewrite R. destruct r; auto; discriminate.
  - pose proof (fs_erase_all_spec f m) as E. destruct (fs_erase_all f s m) as [m' r].
    destruct E as (R & FR & BL). split; auto. intros id Hid. cbn. unfold know. rewrite R.
    destruct r; try exact I. now apply BL.
Qed.

Theorem history_spec : forall l m c, Forall fs_op_ok (map snd l) ->
  (forall id, id < fs_blocks s -> holds m id (c id)) ->
  let '(m', c') := fs_history (fs_step sha encrypt p s) m c l in
  (forall id, id < fs_blocks s -> holds m' id (c' id)) /\
  (forall x, ~ in_store x -> m' x = m x).
Proof.
  induction l as [|[f o] l IH]; intros m c HF HI; [cbn; auto|].
  cbn [map snd] in HF. apply Forall_cons_iff in HF. destruct HF as (Ho & HF). cbn [fs_history].
  pose proof (step_spec f m c o Ho HI) as S. destruct (fs_step sha encrypt p s m f o) as [m1 r].
  destruct S as (S1 & S2). specialize (IH m1 _ HF S1).
  destruct (fs_history (fs_step sha encrypt p s) m1 (spec_step c o r) l) as [m2 c2].
  destruct IH as (I1 & I2). split; auto. intros x Hx. rewrite I2 by auto. auto.
Qed.

(** What a read returns. *)
Lemma read_holds : forall f m id d buf, no_read_faults f -> id < fs_blocks s -> holds m id (Stored d) ->
  N.of_nat (length d) <= buf -> fs_read sha decrypt p f s m id buf = inl d.
Proof.
  intros f m id d buf NF Hid ((Z1 & Z2 & Z3) & BY & ct & extra & P & R) Hb. unfold fs_read.
  destruct (protects_length _ _ _ P) as (L1 & L2).
  pose proof (ok_max16 _ _ OK) as MAX.
  rewrite <- L2. rewrite (read_stored s _ OK f m id ct extra buf 0); auto; try lia.
  - unfold protects in P. destruct ENG. destruct p.
    + destruct P as (-> & _). reflexivity.
    + destruct P as (-> & ->). destruct (list_eq_dec N.eq_dec (sha d) (sha d)); [reflexivity|congruence].
    + destruct P as (iv & L & B & -> & ->). rewrite firstn_app_le, firstn_all2 by lia.
      rewrite skipn_app_ge, L, Nat.sub_diag by lia. cbn [skipn]. now rewrite dec_ok by auto.
  - eapply nonempty_length; eauto.
Qed.

Lemma read_erased : forall f m id buf, no_read_faults f -> id < fs_blocks s -> fs_variable s = true ->
  holds m id Erased -> fs_read sha decrypt p f s m id buf = inr FsNoData /\ has_data_stored f s m id = inl false.
Proof.
  intros f m id buf NF Hid V H. cbn in H.
  assert (HB: 4 <= fs_block s).
  { pose proof (ok_size _ _ OK). rewrite V in *. unfold HEADER_LENGTH in *. lia. }
  assert (RH: read_header f s m (block_addr s id) = inr FsNoData).
  { apply (read_blank_header s _ OK); auto; apply H; lia. }
  split.
  - unfold fs_read. rewrite (read_no_header s); auto.
  - unfold has_data_stored, get_data_length. destruct (N.leb_spec (fs_blocks s) id); [lia|]. now rewrite V, RH.
Qed.

(** A working device carries the write out. *)
Lemma write_works : forall f m id d iv, works (fs_block s) f -> bytes_ok d -> bytes_ok iv -> length iv = IV_LENGTH ->
  id < fs_blocks s -> size_ok d -> snd (fs_write sha encrypt p f s m id d iv) = FsOk.
Proof.
  intros f m id d iv W Hd Hiv Hl Hid SZ.
  pose proof (fs_write_cases f m id d iv Hiv Hl) as C.
  assert (V: verify_write_params s id (N.of_nat (length d)) = FsOk).
  { destruct SZ as (Z1 & Z2 & Z3). unfold verify_write_params. rewrite NOVER, N.sub_0_r.
    destruct (N.eqb_spec (N.of_nat (length d)) 0). { destruct d; [congruence|cbn in *; lia]. }
    destruct (N.leb_spec (fs_blocks s) id); [lia|].
    destruct (N.ltb_spec (fs_max s) (N.of_nat (length d))); [lia|].
    destruct (fs_variable s); [reflexivity|]. rewrite Z3 by auto. now rewrite N.eqb_refl. }
  assert (WC: forall ct extra, protects d ct extra -> snd (write_common f s m id ct extra) = FsOk).
  { intros ct extra P. destruct (protects_length _ _ _ P) as (L1 & L2). destruct SZ as (Z1 & Z2 & Z3).
    unfold write_common. pose proof (erase_block s _ OK f m id Hid) as E.
    destruct (erase_region (f_erase f) (fs_sector s) m (block_addr s id) (N.to_nat (fs_block s))) as [m1 r]. cbn zeta in E.
    destruct E as (j & J1 & J2 & J3 & J4 & J5). destruct W as (W1 & W2 & W3). rewrite (J5 W2) in *.
    rewrite (J3 eq_refl) in J2.
    assert (SL: N.of_nat (length (stream s ct extra)) <= fs_block s) by (apply (stream_length s _ OK); [lia|congruence]).
    assert (D: snd (do_writes f m1 (block_addr s id) (store_writes s ct extra)) = FuOk).
    { apply (do_writes_works f (fs_block s) (stream s ct extra)); auto.
      - split; [exact W1|split; [exact W2|exact W3]].
      - eapply protects_bytes; eauto.
      - apply (store_writes_ok s _ OK). eapply nonempty_length; eauto.
      - intros i Hi. left. rewrite J2, erased_prefix, (block_sectors s _ OK). apply nor_erase_in. lia. }
    destruct (do_writes f m1 (block_addr s id) (store_writes s ct extra)) as [m2 r2]. cbn [snd] in *. now rewrite D. }
  destruct (fs_write sha encrypt p f s m id d iv) as [m' r] eqn:FW. cbn [snd].
  destruct C as [(-> & R)|(_ & _ & ct & extra & P & E)].
  - exfalso. unfold fs_write in FW. rewrite V in FW.
    assert (RR: forall ct extra, (m, r) = write_common f s m id ct extra -> refused r = true -> False).
    { intros ct extra Q R'. pose proof (write_common_spec s _ OK f m id ct extra Hid) as S. rewrite <- Q in S.
      destruct S as (_ & _ & S). congruence. }
    destruct p; [eapply RR; eauto|eapply RR; eauto|]. destruct (encrypt iv d). eapply RR; eauto.
  - specialize (WC _ _ P). rewrite <- E in WC. exact WC.
Qed.

Lemma store_bytes_in : forall x, in_store x <-> store_bytes s x.
Proof.
  intros x. unfold in_store, store_bytes, in_block. split; intros (id & Hid & H); exists id; split; auto; cbn zeta in *;
    rewrite (block_addr_start s _ OK) in * by auto; exact H.
Qed.

(** Interrupted writes. *)
Lemma write_ops_form : forall id d iv, bytes_ok iv -> length iv = IV_LENGTH ->
  exists ct extra, protects d ct extra /\ fs_write_ops sha encrypt p s id d iv = device_ops s id ct extra.
Proof.
  intros id d iv Hb Hl. unfold fs_write_ops, protects. destruct p; [exists d, []|exists d, (sha d)|]; auto.
  exists (fst (encrypt iv d)), (iv ++ snd (encrypt iv d)). split; auto. exists iv. auto.
Qed.

Lemma fs_read_ext : forall f m m' id buf, same_image m m' ->
  fs_read sha decrypt p f s m' id buf = fs_read sha decrypt p f s m id buf.
Proof. intros. unfold fs_read. now rewrite (read_common_ext s f m m'). Qed.

Lemma interrupted_fs_read : forall torn f m m' id d iv buf, no_read_faults f -> fs_variable s = true ->
  id < fs_blocks s -> size_ok d -> bytes_ok d -> bytes_ok iv -> length iv = IV_LENGTH ->
  (torn = true -> fs_page s = None /\ fs_max s < 65280) ->
  interrupted torn m (fs_write_ops sha encrypt p s id d iv) m' -> N.of_nat (length d) <= buf ->
  fs_read sha decrypt p f s m' id buf = fs_read sha decrypt p f s m id buf \/
  fs_read sha decrypt p f s m' id buf = inr FsNoData \/
  fs_read sha decrypt p f s m' id buf = inl d.
Proof.
  intros torn f m m' id d iv buf NF V Hid SZ Hd Hiv Hl T HI Hb.
  destruct (write_ops_form id d iv Hiv Hl) as (ct & extra & P & E). rewrite E in HI.
  destruct (protects_length _ _ _ P) as (L1 & L2). pose proof SZ as (Z1 & Z2 & Z3).
  assert (NE: ct <> []) by (eapply nonempty_length; eauto).
  destruct (interrupted_read s _ OK torn f m m' id ct extra NF V Hid NE ltac:(lia) T HI) as [S|[S|S]].
  - left. now apply fs_read_ext.
  - right. left. unfold fs_read. rewrite (read_no_header s); auto.
  - right. right. apply read_holds; auto. cbn. split; auto. split; auto. exists ct, extra. split; auto.
    apply (completed_stream s _ OK m); auto; try lia. eapply protects_bytes; eauto.
Qed.

Lemma fs_write_interrupted : forall f m id d iv, bytes_ok iv -> length iv = IV_LENGTH ->
  let '(m', r) := fs_write sha encrypt p f s m id d iv in
  (m' = m /\ refused r = true) \/
  (id < fs_blocks s /\ size_ok d /\ interrupted true m (fs_write_ops sha encrypt p s id d iv) m').
Proof.
  intros f m id d iv Hb Hl. unfold fs_write.
  destruct (verify_write_params s id (N.of_nat (length d))) eqn:E;
    [|left; split; [reflexivity|]; pose proof (verify_params_spec id (N.of_nat (length d))) as V; rewrite E in V;
      solve [destruct V; [discriminate|assumption]] ..].
  destruct (verify_params_ok _ _ E) as (Hid & SZ). unfold fs_write_ops. destruct p; [| |destruct (encrypt iv d) as [enc tag]];
    match goal with |- context[write_common ?f ?s ?m ?id ?d ?e] =>
      pose proof (write_common_spec s _ OK f m id d e Hid) as S; destruct (write_common f s m id d e) end;
    right; splits; auto; apply S.
Qed.

(** Reads are checked. *)
Lemma read_common_data : forall f m id buf al el x y, read_common f s m id buf al el = inl (x, y) ->
  exists a, x = img_read m a (length x) /\ y = img_read m (a + N.of_nat (length x)) el.
Proof.
  clear. intros f m id buf al el x y H. unfold read_common in H.
  destruct (fs_blocks s <=? id); [discriminate|]. destruct (_ && _); [discriminate|].
  match type of H with match ?l with _ => _ end = _ => destruct l as [[da len]|] end; [|discriminate].
  destruct (_ && _); [discriminate|]. destruct (f_read f da); [discriminate|]. destruct (_ && _); [discriminate|].
  injection H as <- <-. exists da. rewrite length_img_read, N2Nat.id. auto.
Qed.
End History.
