(** Proofs about the block store. *)
From Coq Require Import List NArith Lia Bool Arith ZifyBool ZifyNat ZifyN.
From Verif Require Import Base Flash_Base FlashUtil_Model FlashUtil_Proofs FlashUpdater_Model
  FlashUpdater_Proofs FlashStore_Model FlashStore_Spec FlashStore_Layout_Proofs.
Import ListNotations.
Local Open Scope N_scope.

(** * Device level *)
Lemma nor_write_same : forall m1 m2 a d, same_image m1 m2 -> same_image (nor_write m1 a d) (nor_write m2 a d).
Proof. intros m1 m2 a d H x. unfold nor_write. now rewrite H. Qed.

Lemma nor_erase_same : forall m1 m2 a d, same_image m1 m2 -> same_image (nor_erase m1 a d) (nor_erase m2 a d).
Proof. intros m1 m2 a d H x. unfold nor_erase. now rewrite H. Qed.

Lemma same_trans : forall m1 m2 m3, same_image m1 m2 -> same_image m2 m3 -> same_image m1 m3.
Proof. intros m1 m2 m3 A B x. now rewrite B, A. Qed.

Lemma same_sym : forall m1 m2, same_image m1 m2 -> same_image m2 m1.
Proof. intros m1 m2 A x. symmetry. apply A. Qed.

Lemma dop_run_same : forall l m1 m2, same_image m1 m2 -> same_image (dop_run m1 l) (dop_run m2 l).
Proof.
  induction l as [|o l IH]; intros m1 m2 H; [exact H|]. cbn. apply IH.
  destruct o; [now apply nor_erase_same|now apply nor_write_same].
Qed.

Lemma dop_run_app : forall l1 l2 m, dop_run m (l1 ++ l2) = dop_run (dop_run m l1) l2.
Proof. intros. apply fold_left_app. Qed.

Lemma nor_write_nil : forall m a, same_image m (nor_write m a []).
Proof. intros m a x. apply nor_write_out. cbn. lia. Qed.

(** Sectors erased one after the other, for an aligned start. *)
Lemma erase_aligned : forall efail c fuel ss m a, 0 < ss -> a mod ss = 0 -> (N.to_nat (N.of_nat c * ss) < fuel)%nat ->
  let '(m', r) := erase_loop efail fuel ss m a (N.of_nat c * ss) in
  exists j, (j <= c)%nat /\ same_image (dop_run m (map (fun i => DErase (a + N.of_nat i * ss) ss) (seq 0 j))) m' /\
    (r = FuOk -> j = c) /\ (r = FuOk \/ r = FuEraseErr) /\ ((forall x, efail x = false) -> r = FuOk).
Proof.
  intros efail. induction c as [|c IH]; intros fuel ss m a Hs Ha Hf.
  - destruct fuel; [lia|]. cbn. exists 0%nat. splits; auto. intro; auto.
  - destruct fuel as [|f]; [lia|]. cbn [erase_loop].
    destruct (N.eqb_spec (N.of_nat (S c) * ss) 0) as [E|_]; [nia|].
    destruct (efail a) eqn:EF.
    { exists 0%nat. splits; auto; [lia|intro; auto|discriminate|]. intros Q. now rewrite Q in EF. }
    unfold region_offset, region_base. rewrite Ha, !N.sub_0_r.
    replace (N.of_nat (S c) * ss - (if ss <? N.of_nat (S c) * ss then ss else N.of_nat (S c) * ss))
      with (N.of_nat c * ss) by (destruct (N.ltb_spec ss (N.of_nat (S c) * ss)); nia).
    specialize (IH f ss (nor_erase m a ss) (a + ss) Hs).
    rewrite <- N.add_mod_idemp_l, Ha, N.add_0_l, N.mod_same in IH by lia.
    specialize (IH eq_refl ltac:(nia)).
    destruct (erase_loop efail f ss (nor_erase m a ss) (a + ss) (N.of_nat c * ss)) as [m' r].
    destruct IH as (j & J1 & J2 & J3 & J4 & J5). exists (S j). splits; auto; try lia.
    cbn [seq map]. cbn [dop_run fold_left dop_do]. rewrite N.add_0_r. eapply same_trans; [|exact J2].
    unfold dop_run. rewrite <- seq_shift, map_map.
    replace (map (fun i => DErase (a + N.of_nat (S i) * ss) ss) (seq 0 j))
      with (map (fun i => DErase (a + ss + N.of_nat i * ss) ss) (seq 0 j))
      by (apply map_ext; intros i; f_equal; lia).
    intros x. reflexivity.
Qed.

Lemma erased_prefix : forall j ss a m x,
  dop_run m (map (fun i => DErase (a + N.of_nat i * ss) ss) (seq 0 j)) x =
  nor_erase m a (N.of_nat j * ss) x.
Proof.
  induction j as [|j IH]; intros ss a m x.
  - cbn. symmetry. apply nor_erase_out. lia.
  - rewrite seq_S, map_app, dop_run_app. cbn [map dop_run fold_left dop_do Nat.add].
    unfold nor_erase at 1. destruct (inb x (a + N.of_nat j * ss) ss) eqn:E.
    + apply inb_spec in E. symmetry. apply nor_erase_in. nia.
    + rewrite IH. unfold nor_erase. apply inb_false in E.
      destruct (inb x a (N.of_nat j * ss)) eqn:E1; destruct (inb x a (N.of_nat (S j) * ss)) eqn:E2; auto.
      * apply inb_spec in E1. apply inb_false in E2. nia.
      * apply inb_spec in E2. apply inb_false in E1. nia.
Qed.

Lemma pv_spec : forall rf ef wr m a d,
  let '(m', r) := program_and_verify rf ef wr None m a d in
  exists k, (k <= length d)%nat /\ same_image (nor_write m a (firstn k d)) m' /\ (r = FuOk -> k = length d).
Proof.
  intros rf ef wr m a d. unfold program_and_verify, program_data, dev_write.
  destruct (wr a) as [n|].
  - cbn. destruct (Nat.eqb_spec (Nat.min n (length d)) (length d)).
    + exists (length d). rewrite firstn_all. rewrite firstn_all2 by lia. splits; auto. intro; auto.
    + exists (Nat.min n (length d)). splits; [lia| |discriminate]. intros x.
      destruct (Nat.le_gt_cases n (length d)); [now rewrite Nat.min_l by lia|lia].
  - exists 0%nat. splits; [lia| |discriminate]. apply same_sym, nor_write_nil.
Qed.

Lemma pv_works : forall f L m a d, works L f -> N.of_nat (length d) <= L ->
  (forall i, (i < length d)%nat -> N.land (m (a + N.of_nat i)) (nth i d 0) = nth i d 0) ->
  snd (program_and_verify (f_read f) (f_erase f) (f_write f) None m a d) = FuOk.
Proof.
  intros f L m a d (W1 & W2 & W3) Hl Hm. unfold program_and_verify, program_data, dev_write.
  destruct (W3 a) as (n & -> & Hn). cbn.
  destruct (Nat.eqb_spec (Nat.min n (length d)) (length d)); [|lia]. cbn [snd].
  unfold verify_data, check_region. apply no_read_fault_check; auto.
  intros k Hk. rewrite firstn_all2 by lia. rewrite nor_write_in by lia.
  replace (N.to_nat (a + N.of_nat k - a)) with k by lia. rewrite Nat.add_0_l. auto.
Qed.

(** * The sequence of writes *)
Definition wops (a : N) (ws : list (N * list N)) : list dop := map (fun w => DWrite (a + fst w) (snd w)) ws.

Lemma do_writes_spec : forall f a ws m,
  let '(m', r) := do_writes f m a ws in
  interrupted true m (wops a ws) m' /\ (r = FuOk -> same_image (dop_run m (wops a ws)) m').
Proof.
  intros f a. induction ws as [|[o d] ws IH]; intros m; cbn [do_writes].
  - split; [|intros _ x; reflexivity]. exists 0%nat. split; [cbn; lia|left]. intros x. reflexivity.
  - pose proof (pv_spec (f_read f) (f_erase f) (f_write f) m (a + o) d) as P.
    destruct (program_and_verify (f_read f) (f_erase f) (f_write f) None m (a + o) d) as [m1 st].
    destruct P as (k & K1 & K2 & K3).
    assert (F: interrupted true m (wops a ((o, d) :: ws)) m1).
    { exists 0%nat. split; [cbn; lia|right; split; auto]. exists (a + o), d, k. split; [reflexivity|]. exact K2. }
    destruct st; try (split; [exact F|discriminate]).
    specialize (K3 eq_refl). subst k. rewrite firstn_all in K2.
    specialize (IH m1). destruct (do_writes f m1 a ws) as [m2 r]. destruct IH as ((n & N1 & N2) & I2).
    assert (R: forall l, same_image (dop_run m (DWrite (a + o) d :: l)) (dop_run m1 l)).
    { intros l. cbn. now apply dop_run_same. }
    split.
    + exists (S n). split; [unfold wops in *; rewrite map_length in *; cbn [length]; lia|]. cbn [wops map firstn fst snd]. fold (wops a ws).
      destruct N2 as [N2|(T & b & d' & k & E & N2)].
      * left. eapply same_trans; [apply R|exact N2].
      * right. split; auto. exists b, d', k. split; [exact E|].
        eapply same_trans; [|exact N2]. apply nor_write_same, R.
    + intros Q. cbn [wops map fst snd]. fold (wops a ws). eapply same_trans; [apply R|auto].
Qed.

Definition whole (S : list N) (a : N) (m : image) : Prop := img_read m a (length S) = S.

Lemma piece_step : forall S a m o d x, bytes_ok S -> piece S (o, d) ->
  (forall i, (i < length S)%nat -> m (a + N.of_nat i) = 255 \/ m (a + N.of_nat i) = nth i S 0) ->
  (forall i, (i < length S)%nat -> nor_write m (a + o) d (a + N.of_nat i) =
     if ((N.to_nat o <=? i) && (i <? N.to_nat o + length d))%nat then nth i S 0 else m (a + N.of_nat i)) /\
  (~ (a <= x < a + N.of_nat (length S)) -> nor_write m (a + o) d x = m x).
Proof.
  intros S a m o d x Hby (P1 & P2) Hm. split.
  - intros i Hi. destruct ((N.to_nat o <=? i) && (i <? N.to_nat o + length d))%nat eqn:E.
    + rewrite nor_write_in by lia.
      replace (N.to_nat (a + N.of_nat i - (a + o))) with (i - N.to_nat o)%nat by lia.
      rewrite P2 by lia. replace (N.to_nat o + (i - N.to_nat o))%nat with i by lia.
      destruct (Hm i Hi) as [-> | ->]; [|apply N.land_diag].
      apply land_255_byte. unfold bytes_ok in Hby. rewrite Forall_forall in Hby. apply Hby, nth_In. auto.
    + apply nor_write_out. lia.
  - intros Hx. apply nor_write_out. lia.
Qed.

Lemma pieces_run : forall S a ws m, bytes_ok S -> Forall (piece S) ws ->
  (forall i, (i < length S)%nat -> m (a + N.of_nat i) = 255 \/ m (a + N.of_nat i) = nth i S 0) ->
  let m' := dop_run m (wops a ws) in
  (forall i, (i < length S)%nat -> covers ws i -> m' (a + N.of_nat i) = nth i S 0) /\
  (forall i, (i < length S)%nat -> m' (a + N.of_nat i) = m (a + N.of_nat i) \/ m' (a + N.of_nat i) = nth i S 0) /\
  (forall i, (i < length S)%nat -> ~ covers ws i -> m' (a + N.of_nat i) = m (a + N.of_nat i)) /\
  (forall x, ~ (a <= x < a + N.of_nat (length S)) -> m' x = m x).
Proof.
  intros S a. induction ws as [|[o d] ws IH]; intros m Hby HF Hm.
  - cbn. splits; auto. intros i Hi (o & d & [] & _).
  - apply Forall_cons_iff in HF. destruct HF as (P & HF). cbn [wops map dop_run fold_left dop_do fst snd].
    fold (wops a ws). fold (dop_run (nor_write m (a + o) d) (wops a ws)).
    assert (PS := fun x => piece_step S a m o d x Hby P Hm).
    destruct (PS 0) as (Q & _).
    assert (Q2: forall i, (i < length S)%nat -> nor_write m (a + o) d (a + N.of_nat i) = 255 \/
       nor_write m (a + o) d (a + N.of_nat i) = nth i S 0).
    { intros i Hi. rewrite Q by auto. destruct (_ && _)%bool; auto. }
    destruct (IH _ Hby HF Q2) as (A & B & C & D). cbn zeta. splits.
    + intros i Hi Cov. destruct (covers_dec ws i) as [C1|C1]; [now apply A|].
      assert (NC: ~ covers ws i).
      { intros (o' & d' & I1 & I2). rewrite Forall_forall in C1. apply (C1 _ I1). exact I2. }
      rewrite C by auto. rewrite Q by auto.
      destruct ((N.to_nat o <=? i) && (i <? N.to_nat o + length d))%nat eqn:E; auto.
      destruct Cov as (o' & d' & [I|I] & Hr); [injection I as <- <-; lia|].
      exfalso. apply NC. exists o', d'. auto.
    + intros i Hi. destruct (B i Hi) as [-> | ->]; auto. rewrite Q by auto. destruct (_ && _)%bool; auto.
    + intros i Hi NC. rewrite C; auto.
      * rewrite Q by auto. destruct ((N.to_nat o <=? i) && (i <? N.to_nat o + length d))%nat eqn:E; auto.
        exfalso. apply NC. exists o, d. split; [now left|lia].
      * intros (o' & d' & I & Hr). apply NC. exists o', d'. split; [now right|auto].
    + intros x Hx. rewrite D by auto. now apply (PS x).
Qed.

Lemma do_writes_works : forall f L S a ws m, works L f -> bytes_ok S -> Forall (piece S) ws ->
  N.of_nat (length S) <= L ->
  (forall i, (i < length S)%nat -> m (a + N.of_nat i) = 255 \/ m (a + N.of_nat i) = nth i S 0) ->
  snd (do_writes f m a ws) = FuOk.
Proof.
  intros f L S a. induction ws as [|[o d] ws IH]; intros m W Hby HF Hl Hm; [reflexivity|].
  cbn [do_writes]. apply Forall_cons_iff in HF. destruct HF as (P & HF). destruct P as (P1 & P2).
  assert (OK: snd (program_and_verify (f_read f) (f_erase f) (f_write f) None m (a + o) d) = FuOk).
  { apply (pv_works f L); auto; [lia|].
    intros i Hi. rewrite P2 by auto.
    replace (a + o + N.of_nat i) with (a + N.of_nat (N.to_nat o + i)) by lia.
    destruct (Hm (N.to_nat o + i)%nat ltac:(lia)) as [-> | ->]; [|apply N.land_diag].
    apply land_255_byte. unfold bytes_ok in Hby. rewrite Forall_forall in Hby. apply Hby, nth_In. lia. }
  pose proof (pv_spec (f_read f) (f_erase f) (f_write f) m (a + o) d) as PS.
  destruct (program_and_verify (f_read f) (f_erase f) (f_write f) None m (a + o) d) as [m1 st].
  cbn [snd] in OK. destruct PS as (k & K1 & K2 & K3). subst st.
  specialize (K3 eq_refl). subst k. rewrite firstn_all in K2. apply IH; auto.
  intros i Hi. rewrite K2. destruct (piece_step S a m o d 0 Hby (conj P1 P2) Hm) as (Q & _).
  rewrite Q by auto. destruct (_ && _)%bool; auto.
Qed.

(** * Addresses *)
Section Store.
Variable s : fstore.
Variable extra_len : N.
Hypothesis OK : fs_ok s extra_len.

Lemma block_addr_start : forall id, id < fs_blocks s ->
  block_addr s id = block_start (fs_base s) (fs_block s) (fs_decreasing s) id.
Proof.
  intros id Hid. destruct (mul_below id (fs_block s) _ Hid) as (M1 & M2 & M3).
  destruct OK as [_ _ (BP & _) _ ok_up ok_down _ _ _ _ _]. unfold block_addr, block_start.
  set (u := id * fs_block s) in *. set (w := fs_block s * (fs_blocks s - 1)) in *.
  set (t := fs_block s * fs_blocks s) in *. clearbody u w t.
  destruct (fs_decreasing s).
  - destruct (ok_down eq_refl) as (D1 & D2 & D3).
    rewrite (w32_small u) by lia.
    unfold w32. replace (fs_base s + (2 ^ 32 - u)) with (fs_base s - u + 1 * 2 ^ 32) by lia.
    rewrite N.mod_add by lia. apply N.mod_small. lia.
  - destruct (ok_up eq_refl) as (U1 & U2). rewrite (w32_small u) by lia. apply w32_small. lia.
Qed.

Lemma start_props : forall id, id < fs_blocks s ->
  let a := block_addr s id in a mod fs_sector s = 0 /\ a + fs_block s <= 2 ^ 32.
Proof.
  intros id Hid. cbn zeta. rewrite block_addr_start by auto. destruct OK. unfold block_start.
  destruct ok_block as (B1 & B2).
  assert (M: (id * fs_block s) mod fs_sector s = 0).
  { rewrite N.mul_mod, B2, N.mul_0_r by lia. apply N.mod_0_l. lia. }
  destruct (fs_decreasing s).
  - destruct (ok_down eq_refl) as (D1 & D2 & D3). split; [|clear - D2; lia].
    apply N.mod_divide in M; [|lia]. apply N.mod_divide in ok_aligned; [|lia].
    apply N.mod_divide; [lia|]. destruct M as (q1 & M). destruct ok_aligned as (q2 & A).
    exists (q2 - q1). rewrite M, A. now rewrite N.mul_sub_distr_r.
  - destruct (ok_up eq_refl) as (U1 & U2).
    split; [|destruct (mul_below id (fs_block s) _ Hid) as (_ & M2 & _); clear - M2 U1; lia].
    rewrite N.add_mod, ok_aligned, M by lia. apply N.mod_0_l. lia.
Qed.

Definition in_block (id x : N) : Prop := block_addr s id <= x < block_addr s id + fs_block s.

Lemma blocks_disjoint : forall i j x, i < fs_blocks s -> j < fs_blocks s -> i <> j ->
  in_block i x -> in_block j x -> False.
Proof.
  intros i j x Hi Hj N Bi Bj. unfold in_block in *. rewrite !block_addr_start in * by auto.
  unfold block_start in *. destruct (mul_below i (fs_block s) _ Hi) as (I1 & _ & _).
  destruct (mul_below j (fs_block s) _ Hj) as (J1 & _ & _).
  assert (A: i * fs_block s + fs_block s <= j * fs_block s \/ j * fs_block s + fs_block s <= i * fs_block s).
  { destruct (N.lt_ge_cases i j); [left|right]; apply mul_apart; lia. }
  destruct (fs_decreasing s) eqn:D.
  - destruct (ok_down _ _ OK D) as (D1 & _). clear - A Bi Bj I1 J1 D1. lia.
  - clear - A Bi Bj. lia.
Qed.

Lemma header_len : forall n, N.of_nat (length (header_bytes s n)) <= if fs_variable s then 4 else 0.
Proof. intros. unfold header_bytes. destruct (fs_variable s), (fs_old_header s); cbn; lia. Qed.

Lemma header_pos : forall n, fs_variable s = true -> (0 < length (header_bytes s n))%nat.
Proof. intros n V. unfold header_bytes. rewrite V. destruct (fs_old_header s); cbn; lia. Qed.

Definition stream (data extra : list N) : list N := header_bytes s (N.of_nat (length data)) ++ data ++ extra.

Lemma stream_length : forall data extra, N.of_nat (length data) <= fs_max s -> N.of_nat (length extra) = extra_len ->
  N.of_nat (length (stream data extra)) <= fs_block s.
Proof.
  intros data extra H1 H2. destruct OK. unfold stream. rewrite !app_length.
  pose proof (header_len (N.of_nat (length data))). unfold HEADER_LENGTH in *. destruct (fs_variable s); lia.
Qed.

Lemma store_writes_ok : forall data extra, data <> [] -> writes_ok (stream data extra) (store_writes s data extra).
Proof.
  intros data extra H. unfold store_writes. destruct OK. destruct (fs_page s) as [p|].
  - specialize (ok_page p eq_refl). apply buffered_writes_ok; auto.
    + pose proof (header_len (N.of_nat (length data))). destruct (fs_variable s); lia.
    + apply header_pos.
  - apply plain_writes_ok.
Qed.

(** * Writing a block *)
Lemma device_ops_eq : forall id data extra, device_ops s id data extra =
  map (fun i => DErase (block_addr s id + N.of_nat i * fs_sector s) (fs_sector s))
      (seq 0 (N.to_nat (fs_block s / fs_sector s))) ++ wops (block_addr s id) (store_writes s data extra).
Proof. reflexivity. Qed.

Lemma block_sectors : N.of_nat (N.to_nat (fs_block s / fs_sector s)) * fs_sector s = fs_block s.
Proof.
  destruct OK. destruct ok_block as (B1 & B2). rewrite N2Nat.id.
  pose proof (N.div_mod (fs_block s) (fs_sector s) ltac:(lia)). lia.
Qed.

Lemma interrupted_app_l : forall t m l1 l2 m', interrupted t m l1 m' -> interrupted t m (l1 ++ l2) m'.
Proof.
  clear. intros t m l1 l2 m' (n & Hn & H). exists n. split; [rewrite app_length; lia|].
  rewrite firstn_app_le by auto. destruct H as [H|(T & a & d & k & E & H)]; [now left|right].
  split; auto. exists a, d, k. split; auto. rewrite nth_error_app1; auto.
  apply nth_error_Some. congruence.
Qed.

Lemma interrupted_app_r : forall t m l1 l2 m1 m', same_image (dop_run m l1) m1 -> interrupted t m1 l2 m' ->
  interrupted t m (l1 ++ l2) m'.
Proof.
  clear. intros t m l1 l2 m1 m' S (n & Hn & H). exists (length l1 + n)%nat. split; [rewrite app_length; lia|].
  rewrite firstn_app_2, dop_run_app.
  assert (R: same_image (dop_run (dop_run m l1) (firstn n l2)) (dop_run m1 (firstn n l2))) by now apply dop_run_same.
  destruct H as [H|(T & a & d & k & E & H)].
  - left. eapply same_trans; eauto.
  - right. split; auto. exists a, d, k. split; [rewrite nth_error_app2 by lia; rewrite <- E; f_equal; lia|].
    eapply same_trans; [|exact H]. now apply nor_write_same.
Qed.

Lemma erase_block : forall f m id, id < fs_blocks s ->
  let '(m', r) := erase_region (f_erase f) (fs_sector s) m (block_addr s id) (N.to_nat (fs_block s)) in
  let er := fun j => map (fun i => DErase (block_addr s id + N.of_nat i * fs_sector s) (fs_sector s)) (seq 0 j) in
  let all := N.to_nat (fs_block s / fs_sector s) in
  exists j, (j <= all)%nat /\ same_image (dop_run m (er j)) m' /\
    (r = FuOk -> j = all) /\ (r = FuOk \/ r = FuEraseErr) /\ ((forall x, f_erase f x = false) -> r = FuOk).
Proof.
  intros f m id Hid. destruct (start_props id Hid) as (A & _). unfold erase_region.
  pose proof (erase_aligned (f_erase f) (N.to_nat (fs_block s / fs_sector s)) (S (N.to_nat (fs_block s)))
    (fs_sector s) m (block_addr s id)) as E. rewrite block_sectors in E. rewrite N2Nat.id.
  assert (0 < fs_sector s) by (destruct OK; lia).
  specialize (E ltac:(lia) A ltac:(lia)).
  destruct (erase_loop (f_erase f) (S (N.to_nat (fs_block s))) (fs_sector s) m (block_addr s id) (fs_block s)) as [m' r].
  exact E.
Qed.

Lemma firstn_map_seq : forall {A} (g : nat -> A) j n, (j <= n)%nat -> firstn j (map g (seq 0 n)) = map g (seq 0 j).
Proof.
  clear. intros A g j n H. replace n with (j + (n - j))%nat by lia. rewrite seq_app, map_app.
  rewrite firstn_app_le by (rewrite map_length, seq_length; lia).
  apply firstn_all2. rewrite map_length, seq_length. lia.
Qed.

Lemma write_common_spec : forall f m id data extra, id < fs_blocks s ->
  let '(m', r) := write_common f s m id data extra in
  interrupted true m (device_ops s id data extra) m' /\
  (r = FsOk -> same_image (dop_run m (device_ops s id data extra)) m') /\
  refused r = false.
Proof.
  intros f m id data extra Hid. unfold write_common. rewrite device_ops_eq.
  pose proof (erase_block f m id Hid) as E.
  destruct (erase_region (f_erase f) (fs_sector s) m (block_addr s id) (N.to_nat (fs_block s))) as [m1 r].
  cbn zeta in E. destruct E as (j & J1 & J2 & J3 & J4 & _).
  assert (I1: interrupted true m (map (fun i => DErase (block_addr s id + N.of_nat i * fs_sector s) (fs_sector s))
      (seq 0 (N.to_nat (fs_block s / fs_sector s)))) m1).
  { exists j. split; [rewrite map_length, seq_length; auto|left]. rewrite firstn_map_seq by auto. exact J2. }
  destruct J4 as [-> | ->].
  - rewrite (J3 eq_refl) in J2. pose proof (do_writes_spec f (block_addr s id) (store_writes s data extra) m1) as W.
    destruct (do_writes f m1 (block_addr s id) (store_writes s data extra)) as [m2 r2].
    destruct W as (W1 & W2). splits.
    + eapply interrupted_app_r; eauto.
    + intros Q. rewrite dop_run_app. eapply same_trans; [apply dop_run_same; exact J2|].
      apply W2. destruct r2; cbn in Q; congruence.
    + destruct r2; reflexivity.
  - splits; [now apply interrupted_app_l|discriminate|reflexivity].
Qed.

(** Any interrupted write changes bytes of the block only. *)
Lemma interrupted_frame : forall t m id data extra m', id < fs_blocks s -> data <> [] ->
  N.of_nat (length data) <= fs_max s -> N.of_nat (length extra) = extra_len ->
  interrupted t m (device_ops s id data extra) m' ->
  forall x, ~ in_block id x -> m' x = m x.
Proof.
  intros t m id data extra m' Hid Hd Hlen He (n & Hn & H) x Hx.
  assert (SL := stream_length data extra Hlen He).
  destruct (store_writes_ok data extra Hd) as (WF & _).
  assert (OPS: Forall (fun o => match o with
      | DErase b l => block_addr s id <= b /\ b + l <= block_addr s id + fs_block s
      | DWrite b d => block_addr s id <= b /\ b + N.of_nat (length d) <= block_addr s id + fs_block s end)
      (device_ops s id data extra)).
  { rewrite device_ops_eq. apply Forall_app. split.
    - apply Forall_forall. intros o I. apply in_map_iff in I. destruct I as (i & <- & I). apply in_seq in I.
      split; [lia|]. pose proof block_sectors. nia.
    - apply Forall_forall. intros o I. apply in_map_iff in I. destruct I as ((o' & d') & <- & I).
      rewrite Forall_forall in WF. specialize (WF _ I). destruct WF as (P1 & _). cbn [fst snd]. lia. }
  assert (RUN: forall l mm, Forall (fun o => match o with
      | DErase b l => block_addr s id <= b /\ b + l <= block_addr s id + fs_block s
      | DWrite b d => block_addr s id <= b /\ b + N.of_nat (length d) <= block_addr s id + fs_block s end) l ->
      dop_run mm l x = mm x).
  { clear - Hx. induction l as [|o l IH]; intros mm F; [reflexivity|]. apply Forall_cons_iff in F. destruct F as (F1 & F).
    cbn. fold (dop_run (dop_do mm o) l). rewrite IH by auto. unfold in_block in Hx.
    destruct o; cbn; [apply nor_erase_out|apply nor_write_out]; lia. }
  destruct H as [H|(_ & b & d & k & E & H)].
  - rewrite H. apply RUN. now apply Forall_firstn.
  - rewrite H. rewrite nor_write_out.
    + apply RUN. now apply Forall_firstn.
    + rewrite Forall_forall in OPS. apply nth_error_In in E. specialize (OPS _ E). cbn in OPS.
      rewrite firstn_length. unfold in_block in Hx. lia.
Qed.

(** A completed write leaves the stream at the start of the block. *)
Lemma completed_stream : forall m id data extra m', id < fs_blocks s -> data <> [] ->
  N.of_nat (length data) <= fs_max s -> N.of_nat (length extra) = extra_len ->
  bytes_ok (stream data extra) ->
  same_image (dop_run m (device_ops s id data extra)) m' ->
  img_read m' (block_addr s id) (length (stream data extra)) = stream data extra.
Proof.
  intros m id data extra m' Hid Hd Hlen He Hby H.
  assert (SL := stream_length data extra Hlen He).
  destruct (store_writes_ok data extra Hd) as (WF & WC).
  rewrite device_ops_eq, dop_run_app in H.
  set (m1 := dop_run m _) in H.
  assert (B: forall i, (i < length (stream data extra))%nat -> m1 (block_addr s id + N.of_nat i) = 255).
  { intros i Hi. unfold m1. rewrite erased_prefix, block_sectors. apply nor_erase_in. lia. }
  destruct (pieces_run (stream data extra) (block_addr s id) (store_writes s data extra) m1 Hby WF) as (A & _).
  { intros i Hi. left. auto. }
  apply nth_ext_len with (d := 0); [apply length_img_read|].
  intros i Hi. rewrite length_img_read in Hi. rewrite nth_img_read by auto. rewrite H. apply A; auto.
Qed.
End Store.
