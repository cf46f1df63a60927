(** Reading the block store: after completed, failed and interrupted writes. *)
From Coq Require Import List NArith Lia Bool Arith ZifyBool ZifyNat ZifyN.
From Verif Require Import Base Flash_Base FlashUtil_Model FlashUtil_Proofs FlashUpdater_Model
  FlashUpdater_Proofs FlashStore_Model FlashStore_Spec FlashStore_Layout_Proofs FlashStore_Proofs.
Import ListNotations.
Local Open Scope N_scope.

Lemma le_value_le16 : forall n, n < 65536 -> le_value (le16 n) = n.
Proof.
  intros n H. cbn [le16 le_value]. pose proof (N.div_mod n 256 ltac:(lia)).
  rewrite (N.mod_small (n / 256) 256) by (apply N.div_lt_upper_bound; lia). lia.
Qed.

Lemma img_read_split : forall m a l1 l2 n, n = (length l1 + length l2)%nat -> img_read m a n = l1 ++ l2 ->
  img_read m a (length l1) = l1 /\ img_read m (a + N.of_nat (length l1)) (length l2) = l2.
Proof.
  intros m a l1 l2 n -> H. rewrite img_read_app in H.
  apply app_inj_tail_iff || (assert (L: length (img_read m a (length l1)) = length l1) by apply length_img_read).
  apply (f_equal (firstn (length l1))) in H as H1. apply (f_equal (skipn (length l1))) in H as H2.
  rewrite firstn_app_le, firstn_all2 in H1 by lia. rewrite firstn_app_le, firstn_all in H1 by lia.
  rewrite skipn_app_ge, skipn_app_ge in H2 by lia. rewrite L, Nat.sub_diag in H2. cbn in H2. auto.
Qed.

Lemma img_read_2 : forall m a, img_read m a 2 = [m a; m (a + 1)].
Proof. intros. unfold img_read. cbn. now rewrite N.add_0_r. Qed.

Section Store.
Variable s : fstore.
Variable extra_len : N.
Hypothesis OK : fs_ok s extra_len.

Lemma read_stored : forall f m id data extra buf al, no_read_faults f -> id < fs_blocks s ->
  data <> [] -> N.of_nat (length data) <= fs_max s -> fs_max s < 65536 ->
  (fs_variable s = false -> N.of_nat (length data) = fs_max s) ->
  N.of_nat (length data) <= buf -> (al = 0 \/ N.of_nat (length data) mod al = 0) ->
  img_read m (block_addr s id) (length (stream s data extra)) = stream s data extra ->
  read_common f s m id buf al (length extra) = inl (data, extra).
Proof.
  intros f m id data extra buf al NF Hid Hd Hlen Hmax Hfix Hbuf Hal HS.
  unfold stream in HS. set (h := header_bytes s (N.of_nat (length data))) in *.
  apply img_read_split in HS; [|now rewrite app_length]. destruct HS as (HH & HS).
  apply img_read_split in HS; [|now rewrite app_length]. destruct HS as (HD & HE).
  unfold read_common. destruct (N.leb_spec (fs_blocks s) id); [lia|].
  set (a := block_addr s id) in *.
  assert (FIN: forall da, da = a + N.of_nat (length h) ->
    (if negb (al =? 0) && negb (N.of_nat (length data) mod al =? 0) then @inr (list N * list N) _ FsNoData
     else if f_read f da then inr (FsFlash FuReadErr)
     else if negb (length extra =? 0)%nat && f_read f (da + N.of_nat (length data)) then inr (FsFlash FuReadErr)
     else inl (img_read m da (N.to_nat (N.of_nat (length data))), img_read m (da + N.of_nat (length data)) (length extra)))
    = inl (data, extra)).
  { intros da ->. rewrite !NF, andb_false_r, Nat2N.id, HD, HE.
    destruct Hal as [-> | ->]; [reflexivity|]. now rewrite andb_false_r. }
  destruct (fs_variable s) eqn:V; cbn [negb andb].
  - unfold read_header. rewrite NF.
    destruct (fs_old_header s) eqn:O.
    + assert (Hh: h = le16 (N.of_nat (length data))) by (unfold h, header_bytes; now rewrite V, O).
      rewrite Hh in HH. cbn [length le16] in HH. rewrite img_read_2.
      rewrite img_read_2 in HH. 
      assert (OLD: fs_max s < 42240) by (apply (ok_old _ _ OK); auto).
      assert (M: m (a + 1) <> HEADER_MARKER).
      { injection HH as E1 E2. rewrite E2. intros Q. unfold HEADER_MARKER in Q.
        assert (N.of_nat (length data) / 256 < 165) by (apply N.div_lt_upper_bound; lia).
        rewrite N.mod_small in Q by lia. lia. }
      destruct (N.eqb_spec (m (a + 1)) HEADER_MARKER); [contradiction|]. cbn [negb].
      rewrite HH. rewrite le_value_le16 by lia.
      destruct (N.ltb_spec (fs_max s) (N.of_nat (length data))); [lia|].
      destruct (N.ltb_spec buf (N.of_nat (length data))); [lia|].
      apply FIN. rewrite Hh. reflexivity.
    + assert (Hh: h = [HEADER_LENGTH; HEADER_MARKER] ++ le16 (N.of_nat (length data)))
        by (unfold h, header_bytes; now rewrite V, O).
      rewrite Hh in HH. apply img_read_split in HH; [|reflexivity]. destruct HH as (H1 & H2).
      cbn [length] in H1. rewrite img_read_2 in H1. injection H1 as E1 E2. rewrite E2, E1, N.eqb_refl. cbn [negb].
      change (N.of_nat (length [HEADER_LENGTH; HEADER_MARKER])) with 2 in H2.
      change (length (le16 (N.of_nat (length data)))) with 2%nat in H2. rewrite H2, le_value_le16 by lia.
      change (HEADER_LENGTH <? HEADER_MIN_LENGTH) with false. cbn [orb].
      destruct (N.ltb_spec (fs_max s) (N.of_nat (length data))); [lia|].
      destruct (N.ltb_spec buf (N.of_nat (length data))); [lia|].
      apply FIN. rewrite Hh. reflexivity.
  - specialize (Hfix eq_refl). rewrite <- Hfix. destruct (N.ltb_spec buf (N.of_nat (length data))); [lia|].
    apply FIN. unfold h, header_bytes. rewrite V. cbn. lia.
Qed.

(** A block whose first two bytes are blank holds no data. *)
Lemma read_blank_header : forall f m a, no_read_faults f -> fs_variable s = true ->
  m a = 255 -> m (a + 1) = 255 -> read_header f s m a = inr FsNoData.
Proof.
  intros f m a NF V H1 H2. unfold read_header. rewrite NF, H2. change (negb (255 =? HEADER_MARKER)) with true.
  cbv iota. rewrite img_read_2, H1, H2. change (le_value [255; 255]) with 65535.
  pose proof (ok_max _ _ OK V). destruct (N.ltb_spec (fs_max s) 65535); [reflexivity|lia].
Qed.

Lemma read_no_header : forall f m id buf al el, id < fs_blocks s -> fs_variable s = true ->
  read_header f s m (block_addr s id) = inr FsNoData -> read_common f s m id buf al el = inr FsNoData.
Proof.
  intros f m id buf al el Hid V H. unfold read_common. destruct (N.leb_spec (fs_blocks s) id); [lia|].
  rewrite V. cbn [negb andb]. now rewrite H.
Qed.

(** Reads depend on the bytes of the flash only. *)
Lemma read_common_ext : forall f m m' id buf al el,
  (forall x, m' x = m x) -> read_common f s m' id buf al el = read_common f s m id buf al el.
Proof.
  intros f m m' id buf al el H. unfold read_common, read_header.
  assert (R: forall a n, img_read m' a n = img_read m a n) by (intros; apply img_read_ext; auto).
  rewrite !R, !H.
  destruct (fs_blocks s <=? id); auto. destruct (_ && _); auto.
  destruct (if fs_variable s then _ else _) as [[da len]|e]; auto. now rewrite !R.
Qed.

(** Reads of a block whose header and data lie in the block depend on the block only. *)
Lemma read_stored_frame : forall m m' id data extra, id < fs_blocks s ->
  N.of_nat (length data) <= fs_max s -> N.of_nat (length extra) = extra_len ->
  (forall x, in_block s id x -> m' x = m x) ->
  img_read m (block_addr s id) (length (stream s data extra)) = stream s data extra ->
  img_read m' (block_addr s id) (length (stream s data extra)) = stream s data extra.
Proof.
  intros m m' id data extra Hid H1 H2 Hx HS. rewrite <- HS at 2. apply img_read_ext. intros i Hi. apply Hx.
  pose proof (stream_length s extra_len OK data extra H1 H2). unfold in_block. lia.
Qed.

(** * Interrupted writes *)
Lemma header_last : forall data extra, data <> [] -> fs_variable s = true ->
  exists ws rest, store_writes s data extra = ws ++ [(0, header_bytes s (N.of_nat (length data)) ++ rest)] /\
    Forall (fun w => N.of_nat (length (header_bytes s (N.of_nat (length data)))) <= fst w) ws /\
    (fs_page s = None -> rest = []).
Proof.
  intros data extra Hd V. unfold store_writes. destruct (fs_page s) as [p|] eqn:P.
  - unfold buffered_writes. rewrite V.
    set (h := header_bytes s (N.of_nat (length data))).
    assert (Hp: (length h < N.to_nat p)%nat).
    { pose proof (ok_page _ _ OK p P). pose proof (header_len s (N.of_nat (length data))). rewrite V in *. unfold h. lia. }
    assert (HL: (0 < length data)%nat) by (destruct data; [congruence|cbn; lia]).
    set (r := ((length data + length h) mod N.to_nat p)%nat).
    set (middle := if (r <? length data)%nat then (length data - r)%nat else length data).
    assert (Hm: (0 < middle)%nat) by (unfold middle; destruct (Nat.ltb_spec r (length data)); lia).
    clearbody middle.
    set (fme := if (N.to_nat p - length h <? middle)%nat then _ else _).
    assert (F: (0 < fst (fst fme))%nat) by (unfold fme; destruct (Nat.ltb_spec (N.to_nat p - length h) middle); cbn; lia).
    destruct fme as [[first mid] ef]. cbn [fst] in F.
    assert (A4: forall a b c d : list (N * list N), a ++ b ++ c ++ d = (a ++ b ++ c) ++ d)
      by (intros; now rewrite <- !app_assoc).
    set (mrw := if (length extra =? 0)%nat then _ else _). destruct mrw as [[mid' rem'] we].
    set (w2o := if negb ef && negb (length extra =? 0)%nat then _ else _).
    assert (W: Forall (fun w => N.of_nat (length h) <= fst w) (fst w2o) /\ (length h <= snd w2o)%nat).
    { unfold w2o. destruct (negb ef && negb (length extra =? 0)%nat); cbn [fst snd]; split; try lia; repeat constructor.
      cbn [fst]. lia. }
    destruct w2o as [w2 off3]. cbn [fst snd] in W. destruct W as (W1 & W2).
    destruct (Nat.eqb_spec first 0); [lia|]. rewrite A4.
    eexists _, (firstn first data ++ _). splits; [reflexivity| |discriminate].
    repeat (apply Forall_app; split); auto.
    + destruct (_ =? 0)%nat; constructor; auto. cbn [fst]. lia.
    + destruct (_ <? _)%nat; constructor; auto. cbn [fst]. lia.
  - unfold plain_writes. rewrite V. rewrite app_assoc. eexists _, []. rewrite app_nil_r. splits; [reflexivity| |auto].
    apply Forall_app. split; [repeat constructor; cbn; lia|]. destruct extra; repeat constructor; cbn [fst]; lia.
Qed.

Lemma wops_below : forall a x ws m,
  Forall (fun w => x < a + fst w) ws -> dop_run m (wops a ws) x = m x.
Proof.
  clear. intros a x ws m. revert m. induction ws as [|[o d] ws IH]; intros m F; [reflexivity|].
  apply Forall_cons_iff in F. destruct F as (F1 & F). cbn [fst] in F1. cbn [wops map dop_run fold_left dop_do fst snd].
  fold (wops a ws). fold (dop_run (nor_write m (a + o) d) (wops a ws)). rewrite IH by auto.
  apply nor_write_out. lia.
Qed.

Lemma torn_header : forall f m m' a n k, no_read_faults f -> fs_variable s = true -> fs_max s < 65280 ->
  n <= fs_max s ->
  (forall i, (i < length (header_bytes s n))%nat -> m (a + N.of_nat i) = 255) ->
  (k < length (header_bytes s n))%nat ->
  same_image (nor_write m a (firstn k (header_bytes s n))) m' ->
  read_header f s m' a = inr FsNoData.
Proof.
  intros f m m' a n k NF V Hmax Hn Hb Hk Hs.
  assert (B: forall i, (i < length (header_bytes s n))%nat -> (k <= i)%nat -> m' (a + N.of_nat i) = 255).
  { intros i Hi Hki. rewrite Hs. rewrite nor_write_out by (rewrite firstn_length; lia). auto. }
  assert (HB: bytes_ok (header_bytes s n)).
  { unfold header_bytes. rewrite V. cbn [negb].
    assert (L: bytes_ok (le16 n)) by (repeat constructor; unfold byte_ok; apply N.mod_lt; lia).
    destruct (fs_old_header s); auto. constructor; [reflexivity|]. constructor; [reflexivity|]. exact L. }
  assert (C: forall i, (i < k)%nat -> m' (a + N.of_nat i) = nth i (header_bytes s n) 0).
  { intros i Hi. rewrite Hs. rewrite nor_write_in by (rewrite firstn_length; lia).
    rewrite Hb by lia. replace (N.to_nat (a + N.of_nat i - a)) with i by lia. rewrite nth_firstn by auto.
    apply land_255_byte. unfold bytes_ok in HB. rewrite Forall_forall in HB. apply HB, nth_In. lia. }
  unfold header_bytes in *. rewrite V in *. cbn [negb] in *. unfold read_header. rewrite NF.
  destruct (fs_old_header s).
  - cbn [length le16] in *. assert (B1: m' (a + 1) = 255) by exact (B 1%nat ltac:(lia) ltac:(lia)). clear B. rename B1 into B.
    rewrite B. change (negb (255 =? HEADER_MARKER)) with true. cbv iota. rewrite img_read_2, B. cbn [le_value].
    destruct (N.ltb_spec (fs_max s) (m' a + 256 * (255 + 256 * 0))); [reflexivity|lia].
  - cbn [length le16] in *.
    assert (B3: m' (a + 3) = 255) by (apply (B 3%nat); lia).
    destruct (Nat.le_gt_cases 2 k) as [K|K].
    + assert (C1: m' (a + 1) = HEADER_MARKER) by exact (C 1%nat ltac:(lia)).
      rewrite C1, N.eqb_refl. cbn [negb]. rewrite img_read_2. replace (a + 2 + 1) with (a + 3) by lia. rewrite B3.
      cbn [le_value].
      destruct (N.ltb_spec (fs_max s) (m' (a + 2) + 256 * (255 + 256 * 0))); [now rewrite orb_true_r|lia].
    + assert (B1: m' (a + 1) = 255) by (apply (B 1%nat); lia). rewrite B1.
      change (negb (255 =? HEADER_MARKER)) with true. cbv iota. rewrite img_read_2, B1. cbn [le_value].
      destruct (N.ltb_spec (fs_max s) (m' a + 256 * (255 + 256 * 0))); [reflexivity|lia].
Qed.

Theorem interrupted_read : forall torn f m m' id data extra, no_read_faults f -> fs_variable s = true ->
  id < fs_blocks s -> data <> [] -> N.of_nat (length data) <= fs_max s ->
  (torn = true -> fs_page s = None /\ fs_max s < 65280) ->
  interrupted torn m (device_ops s id data extra) m' ->
  same_image m m' \/ read_header f s m' (block_addr s id) = inr FsNoData \/
  same_image (dop_run m (device_ops s id data extra)) m'.
Proof.
  intros torn f m m' id data extra NF V Hid Hd Hlen Htorn (n & Hn & H).
  rewrite device_ops_eq in *. set (a := block_addr s id) in *.
  set (E := map (fun i => DErase (a + N.of_nat i * fs_sector s) (fs_sector s)) (seq 0 (N.to_nat (fs_block s / fs_sector s)))) in *.
  assert (LE: length E = N.to_nat (fs_block s / fs_sector s)) by (unfold E; now rewrite map_length, seq_length).
  pose proof (ok_sector _ _ OK) as SS.
  destruct (header_last data extra Hd V) as (ws & rest & W1 & W2 & W3). rewrite W1 in *.
  set (hd := header_bytes s (N.of_nat (length data))) in *.
  assert (HL: (2 <= length hd <= 4)%nat).
  { unfold hd, header_bytes. rewrite V. destruct (fs_old_header s); cbn; lia. }
  destruct (Nat.le_gt_cases (length E) n) as [Hne|Hne].
  - (* all erased *)
    assert (BL: forall x, a <= x < a + 4 -> dop_run m E x = 255).
    { intros x Hx. unfold E. rewrite erased_prefix, (block_sectors s extra_len OK). apply nor_erase_in.
      pose proof (block_sectors s extra_len OK) as BS. destruct (ok_block _ _ OK) as (B1 & _).
      assert (0 < N.of_nat (N.to_nat (fs_block s / fs_sector s))) by nia. nia. }
    replace n with (length E + (n - length E))%nat in * by lia. set (q := (n - length E)%nat) in *.
    clearbody q. rewrite app_length in Hn. rewrite firstn_app_2, dop_run_app in H.
    rewrite nth_error_app2 in H by lia. replace (length E + q - length E)%nat with q in H by lia.
    assert (LW: length (wops a (ws ++ [(0, hd ++ rest)])) = S (length ws)).
    { unfold wops. rewrite map_length, app_length. cbn. lia. }
    rewrite LW in Hn.
    assert (WA: wops a (ws ++ [(0, hd ++ rest)]) = wops a ws ++ [DWrite (a + 0) (hd ++ rest)]).
    { unfold wops. now rewrite map_app. }
    rewrite WA in *.
    assert (LW2: length (wops a ws) = length ws) by (unfold wops; apply map_length).
    destruct (Nat.le_gt_cases q (length ws)) as [Hq|Hq].
    + (* the header is not written yet *)
      rewrite firstn_app_le in H by lia.
      assert (PB: forall i, (i < length hd)%nat -> dop_run (dop_run m E) (firstn q (wops a ws)) (a + N.of_nat i) = 255).
      { intros i Hi. unfold wops. rewrite firstn_map. fold (wops a (firstn q ws)). rewrite wops_below; auto.
        - apply BL. lia.
        - apply Forall_firstn. eapply Forall_impl; [|exact W2]. cbn. intros [o d]. cbn. lia. }
      assert (FB: forall mm, (forall i, (i < length hd)%nat -> mm (a + N.of_nat i) = 255) -> read_header f s mm a = inr FsNoData).
      { intros mm Hm. apply read_blank_header; auto.
        - specialize (Hm 0%nat ltac:(lia)). now rewrite N.add_0_r in Hm.
        - apply (Hm 1%nat). lia. }
      destruct H as [H|(T & b & d & k & NE & H)].
      * right. left. apply FB. intros i Hi. rewrite H. auto.
      * destruct (Nat.eq_dec q (length ws)) as [Q|Q].
        -- rewrite nth_error_app2 in NE by lia. rewrite Q, LW2, Nat.sub_diag in NE. cbn in NE.
           injection NE as <- <-. destruct (Htorn T) as (T1 & T2). rewrite (W3 T1) in *. rewrite app_nil_r in *.
           rewrite N.add_0_r in *.
           destruct (Nat.lt_ge_cases k (length hd)) as [K|K].
           ++ right. left. eapply torn_header; eauto.
           ++ right. right. rewrite dop_run_app. rewrite (firstn_all2 hd) in H by lia. rewrite dop_run_app.
              cbn [dop_run fold_left dop_do]. rewrite (firstn_all2 (wops a ws)) in H by lia. exact H.
        -- rewrite nth_error_app1 in NE by lia. right. left. apply FB. intros i Hi. rewrite H.
           rewrite nor_write_out; [auto|]. left.
           unfold wops in NE. rewrite nth_error_map in NE. destruct (nth_error ws q) as [[o d']|] eqn:NW; [|discriminate].
           cbn in NE. injection NE as <- <-. apply nth_error_In in NW. rewrite Forall_forall in W2.
           specialize (W2 _ NW). cbn in W2. lia.
    + (* complete *)
      assert (q = S (length ws)) by lia. subst q.
      right. right. rewrite dop_run_app.
      destruct H as [H|(T & b & d & k & NE & H)].
      * rewrite firstn_all2 in H; [exact H|]. rewrite app_length, LW2. cbn. lia.
      * exfalso. rewrite nth_error_app2 in NE by lia. rewrite LW2 in NE.
        replace (S (length ws) - length ws)%nat with 1%nat in NE by lia. discriminate.
  - (* erasing *)
    rewrite firstn_app_le in H by lia.
    destruct H as [H|(T & b & d & k & NE & H)].
    + unfold E in H. rewrite firstn_map_seq in H by lia.
      destruct n as [|n'].
      * left. intros x. rewrite H. reflexivity.
      * right. left. apply read_blank_header; auto; rewrite H, erased_prefix; apply nor_erase_in; nia.
    + exfalso. rewrite nth_error_app1 in NE by lia. unfold E in NE. rewrite nth_error_map in NE.
      destruct (nth_error (seq 0 (N.to_nat (fs_block s / fs_sector s))) n); discriminate.
Qed.
End Store.
