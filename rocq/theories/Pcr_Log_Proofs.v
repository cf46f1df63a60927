(** Proofs about the measured data and the logs (C22, C38), and histories of calls (C20, C21). *)
From Coq Require Import List NArith ZArith Lia Bool Arith.
From Coq Require Import ZifyBool ZifyNat ZifyN.
From Verif Require Import Base BufferUtil_Model BufferUtil_Proofs FlashStore_Layout_Proofs.
From Verif Require Import Pcr_Model Pcr_Spec Pcr_Proofs.
Import ListNotations.

(* ------------------------------------------------------------------------------------------ *)
(** Copying a piece [Q] of a log: [off] bytes still to skip, [len] bytes of room at [pos]. *)

Definition copied (Q : list N) (off len pos : nat) (buf : list N) (off' len' pos' : nat) (buf' : list N) : Prop :=
  let w := window off len Q in
  pos' = pos + length w /\ len' = len - length w /\ buf' = splice buf pos w /\
  (len' = 0 \/ off' = off - length Q).

Lemma splice_app_r : forall (A : Type) (buf a b : list A) pos, pos + length a + length b <= length buf ->
  splice (splice buf pos a) (pos + length a) b = splice buf pos (a ++ b).
Proof.
  intros A buf a b pos L. unfold splice. rewrite app_length.
  assert (length (firstn pos buf) = pos) as LF by (rewrite firstn_length; lia).
  rewrite (app_assoc (firstn pos buf) a).
  rewrite firstn_app_le by (rewrite app_length; lia).
  rewrite firstn_all2 by (rewrite app_length; lia).
  rewrite skipn_app_ge by (rewrite app_length; lia).
  rewrite app_length, LF. rewrite skipn_skipn. rewrite <- !app_assoc. do 3 f_equal. f_equal. lia.
Qed.

Lemma splice_app_l : forall (A : Type) (buf a b : list A) pos, pos + length a + length b <= length buf ->
  splice (splice buf (pos + length a) b) pos a = splice buf pos (a ++ b).
Proof.
  intros A buf a b pos L. unfold splice. rewrite app_length.
  assert (length (firstn (pos + length a) buf) = pos + length a) as LF by (rewrite firstn_length; lia).
  rewrite firstn_app_le by lia. rewrite firstn_firstn, Nat.min_l by lia.
  rewrite skipn_app_ge by lia. rewrite LF, Nat.sub_diag. cbn [skipn]. rewrite <- app_assoc.
  do 3 f_equal. f_equal. lia.
Qed.

Lemma copied_trans : forall Q1 Q2 o1 l1 p1 b1 o2 l2 p2 b2 o3 l3 p3 b3,
  p1 + l1 <= length b1 ->
  copied Q1 o1 l1 p1 b1 o2 l2 p2 b2 -> copied Q2 o2 l2 p2 b2 o3 l3 p3 b3 ->
  copied (Q1 ++ Q2) o1 l1 p1 b1 o3 l3 p3 b3.
Proof.
  unfold copied. intros Q1 Q2 o1 l1 p1 b1 o2 l2 p2 b2 o3 l3 p3 b3 B (A1 & A2 & A3 & A4) (C1 & C2 & C3 & C4).
  pose proof (length_window o1 l1 Q1) as LW.
  assert (window o1 l1 (Q1 ++ Q2) = window o1 l1 Q1 ++ window o2 l2 Q2) as W.
  { rewrite window_app. f_equal. rewrite <- A2. destruct A4 as [A4|A4]; [rewrite A4|rewrite A4; auto].
    now rewrite !window_zero. }
  pose proof (length_window o2 l2 Q2) as LW2.
  rewrite W, !app_length. clear W. splits.
  - rewrite C1, A1. lia.
  - rewrite C2, A2. lia.
  - rewrite C3, A3, A1. apply splice_app_r. clear - B LW LW2 A2. lia.
  - destruct C4 as [C4|C4]; [left; exact C4|]. destruct A4 as [A4|A4]; [left|right; rewrite C4, A4]; lia.
Qed.

Lemma copied_full : forall Q o o' p b, copied Q o 0 p b o' 0 p b.
Proof.
  unfold copied. intros. rewrite window_zero. cbn [length]. rewrite splice_nil. splits; auto; lia.
Qed.

Lemma copied_nil : forall o l p b, copied [] o l p b o l p b.
Proof.
  unfold copied. intros. rewrite window_nil. cbn [length]. rewrite splice_nil. splits; auto; lia.
Qed.

Lemma copied_bound : forall Q o l p b o' l' p' b', copied Q o l p b o' l' p' b' -> p + l <= length b ->
  p' + l' <= length b' /\ length b' = length b /\ p' + l' = p + l.
Proof.
  unfold copied. intros Q o l p b o' l' p' b' (A & B & C & D) E. pose proof (length_window o l Q).
  rewrite C. rewrite length_splice by lia. lia.
Qed.

Lemma copy_segments_copied : forall segs off len pos buf o' l' p' b', pos + len <= length buf ->
  copy_segments segs off len pos buf = (o', l', p', b') ->
  copied (concat segs) off len pos buf o' l' p' b'.
Proof.
  intros segs off len pos buf o' l' p' b' B E. rewrite copy_segments_correct in E by auto.
  assert (o' = off - length (concat segs)) by congruence.
  assert (l' = len - length (window off len (concat segs))) by congruence.
  assert (p' = pos + length (window off len (concat segs))) by congruence.
  assert (b' = splice buf pos (window off len (concat segs))) by congruence.
  unfold copied. splits; auto.
Qed.

(** A zero-length buffer or an empty log: the whole read result. *)
Lemma copied_read_result : forall Q off len buf o' l' p' b',
  copied Q off len 0 buf o' l' p' b' -> (p', b') = read_result Q off len buf.
Proof. unfold copied, read_result. intros Q off len buf o' l' p' b' (A & B & C & D). subst. reflexivity. Qed.

(* ------------------------------------------------------------------------------------------ *)
(** Measured data. *)

Lemma read_bytes_window : forall l n off len, n <= length l ->
  read_bytes (Some l) n off len = window off len (firstn n l).
Proof.
  intros l n off len L. unfold read_bytes.
  destruct (Nat.eqb_spec n 0); cbn [orb].
  { subst. cbn [firstn]. now rewrite window_nil. }
  destruct (Nat.eqb_spec len 0); cbn [orb].
  { subst. now rewrite window_zero. }
  destruct (Nat.ltb_spec (n - 1) off).
  { rewrite window_past; auto. rewrite firstn_length. lia. }
  assert (n - off = Nat.min (n - off) (length l - off)) as M by lia.
  unfold window. rewrite skipn_firstn_comm.
  rewrite firstn_firstn. f_equal. destruct (Nat.ltb_spec len (n - off)); lia.
Qed.

Lemma prefix_part_window : forall p off len,
  prefix_part true p off len = (window off len p, off - length p, len - length (window off len p)).
Proof.
  intros. unfold prefix_part. destruct (Nat.ltb_spec off (length p)).
  - rewrite read_bytes_window by auto. rewrite firstn_all. pair_eq; auto; lia.
  - rewrite window_past by auto. cbn [length]. pair_eq; auto; lia.
Qed.

Lemma length_img_read : forall m a n, length (img_read m a n) = n.
Proof. intros. unfold img_read. now rewrite map_length, seq_length. Qed.

Lemma window_img_read : forall m a n off len, off <= n ->
  window off len (img_read m a n) = img_read m (a + N.of_nat off) (Nat.min len (n - off)).
Proof.
  intros m a n off len L. apply nth_ext_len with (d := 0%N).
  - rewrite length_window, !length_img_read. lia.
  - intros i Hi. rewrite length_window, length_img_read in Hi.
    rewrite nth_window by lia. unfold img_read.
    rewrite (nth_indep _ 0%N (m (a + N.of_nat 0))%N) by (rewrite map_length, seq_length; lia).
    rewrite (map_nth (fun i => m (a + N.of_nat i)%N)), seq_nth by lia.
    rewrite (nth_indep _ 0%N (m (a + N.of_nat off + N.of_nat 0))%N) by (rewrite map_length, seq_length; lia).
    rewrite (map_nth (fun i => m (a + N.of_nat off + N.of_nat i)%N)), seq_nth by lia.
    f_equal. lia.
Qed.

Section Data.
  Variable flash : nat -> image.
  Variable flash_status : nat -> N -> nat -> N.
  Variable content : mdata -> list N.

  Lemma data_part_spec : forall d c off len, stored flash d c ->
    data_part flash flash_status d off len = (inl (window off len c), length c) \/
    (exists e t, data_part flash flash_status d off len = (inr e, t) /\
       ((exists dev a n, flash_status dev a n <> 0%N) \/
        exists get h o l e' t', d = DataCallback get h /\ get o l = (inr e', t'))).
  Proof.
    intros d c off len S. destruct S; cbn [data_part].
    - left. rewrite read_bytes_window by (cbn; lia). reflexivity.
    - left. rewrite read_bytes_window by (cbn; lia). reflexivity.
    - left. rewrite read_bytes_window by (cbn; lia). rewrite le32_bytes. rewrite firstn_all2; [reflexivity|].
      rewrite length_le_bytes. lia.
    - left. rewrite le64_bytes. rewrite read_bytes_window by (rewrite length_le_bytes; lia).
      rewrite firstn_all2; [|rewrite length_le_bytes; lia]. rewrite length_le_bytes. reflexivity.
    - left. rewrite read_bytes_window by auto. rewrite firstn_length, Nat.min_l by auto. reflexivity.
    - left. rewrite window_nil. reflexivity.
    - destruct (Nat.eqb_spec n 0); [lia|].
      destruct (Nat.ltb_spec (n - 1) off).
      + left. rewrite window_past by (rewrite length_img_read; lia). now rewrite length_img_read.
      + assert ((if len <? n - off then len else n - off) = Nat.min len (n - off)) as M
          by (destruct (Nat.ltb_spec len (n - off)); lia).
        rewrite M.
        destruct (N.eqb_spec (flash_status dev (a + N.of_nat off)%N (Nat.min len (n - off))) 0%N).
        * left. rewrite window_img_read by lia. now rewrite length_img_read.
        * right. eexists. eexists. split; [reflexivity|]. left. eauto.
    - destruct (H off len) as [E|(e & t & E)]; rewrite E.
      + left. reflexivity.
      + right. eexists. eexists. split; [reflexivity|]. right. do 6 eexists. split; [reflexivity|exact E].
  Qed.

  Lemma measurement_data_spec : forall b i off len, i < length (mlist b) -> bank_stored flash content b ->
    measurement_data flash flash_status b i off len =
      Ok (window off len (measured content (get_m b i)), length (measured content (get_m b i))) \/
    (exists e, measurement_data flash flash_status b i off len = Err e /\ bank_faulty flash_status b).
  Proof.
    intros b i off len L ST. unfold measurement_data, measured.
    destruct (Nat.leb_spec (length (mlist b)) i); [lia|].
    assert (In (get_m b i) (mlist b)) as IN by (apply nth_In; auto).
    set (m := get_m b i) in *.
    destruct (data m) as [d|] eqn:D; [|left; rewrite window_nil; reflexivity].
    rewrite le32_bytes.
    assert (forall inc p o l, prefix_part inc p o l =
              (window o l (if inc then p else []), o - length (if inc then p else []),
               l - length (window o l (if inc then p else [])))) as PP.
    { intros inc p o l. destruct inc; [apply prefix_part_window|]. unfold prefix_part. rewrite window_nil.
      cbn [length]. pair_eq; auto; lia. }
    rewrite PP. rewrite PP.
    set (p1 := if f_event m then _ else _). set (p2 := if f_version m then _ else _).
    destruct (data_part_spec d (content d) (off - length p1 - length p2)
      (len - length (window off len p1) -
       length (window (off - length p1) (len - length (window off len p1)) p2)) (ST m d IN D))
      as [E|(e & t & E & F)]; rewrite E.
    - left. f_equal. rewrite window_app. rewrite window_app. rewrite !app_length.
      replace (if f_event m then 4 else 0) with (length p1) by (unfold p1; destruct (f_event m); reflexivity).
      replace (if f_version m then 1 else 0) with (length p2) by (unfold p2; destruct (f_version m); reflexivity).
      pair_eq; auto. lia.
    - right. exists e. split; auto. destruct F as [F|(get & h & o & l & e' & t' & F & G)]; [left; auto|].
      right. exists m, get, h, o, l, e', t'. subst d. auto.
  Qed.

  Lemma hash_measurement_data_spec : forall H hs b i ht len d m,
    i < length (mlist b) -> bank_stored flash content b -> get_m b i = m -> data m = Some d ->
    ht <> balgo b -> hash_len ht <= len ->
    match hash_measurement_data H hs flash flash_status b i ht len with
    | Ok r => r = H ht (measured content m)
    | Err _ => hs 0%nat <> 0%N \/ (exists dev a n, flash_status dev a n <> 0%N) \/
               exists get h, d = DataCallback get h /\ forall c, h <> Some (inl c)
    | Wrapped => False
    end.
  Proof.
    intros H hs b i ht len d m L ST G D A HL. unfold hash_measurement_data, measured.
    destruct (Nat.leb_spec (length (mlist b)) i); [lia|].
    destruct (Nat.ltb_spec len (hash_len ht)); [lia|].
    assert (algo_eqb ht (balgo b) = false) as AE.
    { destruct (algo_eqb ht (balgo b)) eqn:E; auto. apply algo_eqb_eq in E. contradiction. }
    rewrite AE, G, D.
    destruct (N.eqb_spec (hs 0) 0%N); cbn [negb]; [|left; auto].
    assert (In m (mlist b)) as IN by (subst m; apply nth_In; auto).
    pose proof (ST m d IN D) as S. rewrite !le32_bytes.
    destruct S; rewrite <- ?app_assoc; try reflexivity.
    - rewrite le32_bytes. reflexivity.
    - rewrite le64_bytes. reflexivity.
    - destruct (N.eqb_spec (flash_status dev a n) 0%N); [reflexivity|]. right. left. eauto.
    - destruct hash as [[h|e']|].
      + subst h. rewrite <- app_assoc. reflexivity.
      + right. right. do 2 eexists. split; [reflexivity|]. intros. congruence.
      + right. right. do 2 eexists. split; [reflexivity|]. intros. congruence.
  Qed.

  (* ---------------------------------------------------------------------------------------- *)
  (** The TCG log. *)

  Lemma length_tcg_entry : forall p a m n, 64 <= length (digest m) -> length (tcg_entry p a m n) = tcg_entry_len a.
  Proof.
    intros. unfold tcg_entry, tcg_entry_len. rewrite !app_length, firstn_length. unfold le32, le16.
    cbn [length]. pose proof (hash_len_le a). lia.
  Qed.

  Lemma tcg_record_eq : forall p a m,
    tcg_record content p a m =
    tcg_entry (N.of_nat p) a m (length (measured content m)) ++ measured content m.
  Proof.
    intros. unfold tcg_record, tcg_entry. rewrite <- !app_assoc. rewrite !le32_bytes.
    replace (tcg_alg a) with (alg_id a) by (destruct a; reflexivity). reflexivity.
  Qed.

  Lemma tcg_loop_spec : forall b p, bank_ok b -> bank_stored flash content b ->
    forall n i s, i + n = length (mlist b) -> c_pos s + c_left s <= length (c_buf s) ->
    let Q := concat (map (tcg_record content p (balgo b)) (skipn i (mlist b))) in
    (exists s', tcg_loop flash flash_status n i b (N.of_nat p) s = Ok s' /\
       copied Q (c_off s) (c_left s) (c_pos s) (c_buf s) (c_off s') (c_left s') (c_pos s') (c_buf s') /\
       (c_left s' = 0 \/ c_total s' = c_total s + length Q)) \/
    (exists e, tcg_loop flash flash_status n i b (N.of_nat p) s = Err e /\ bank_faulty flash_status b).
  Proof.
    intros b p OK ST. induction n as [|n IH]; intros i s L B Q; unfold Q; clear Q.
    - left. exists s. cbn [tcg_loop]. split; auto. rewrite skipn_all2 by lia. cbn [map concat length].
      split; [apply copied_nil|right; lia].
    - cbn [tcg_loop]. destruct (Nat.eqb_spec (c_left s) 0) as [Z|Z].
      { left. exists s. split; auto. rewrite Z. split; [apply copied_full|auto]. }
      assert (skipn i (mlist b) = get_m b i :: skipn (S i) (mlist b)) as SB.
      { assert (i < length (mlist b)) as Hk by lia. unfold get_m. clear - Hk.
        revert i Hk. induction (mlist b); destruct i; cbn [length skipn nth]; intros; try lia; auto.
        apply IHl. lia. }
      rewrite SB. cbn [map concat].
      set (m := get_m b i) in *. set (el := tcg_entry_len (balgo b)).
      set (rest := concat (map (tcg_record content p (balgo b)) (skipn (S i) (mlist b)))) in *.
      set (c := measured content m).
      set (E := tcg_entry (N.of_nat p) (balgo b) m (length c)).
      assert (length E = el) as LE.
      { apply length_tcg_entry. eapply (Forall_forall meas_ok (mlist b)) in OK; [destruct OK as [-> _]; auto|].
        apply nth_In. lia. }
      set (skip := el <=? c_off s).
      set (elen := Nat.min (el - c_off s) (c_left s)).
      set (off1 := if skip then c_off s - el else 0).
      set (pos1 := if skip then c_pos s else c_pos s + elen).
      set (left1 := if skip then c_left s else c_left s - elen).
      destruct (measurement_data_spec b i off1 left1 ltac:(lia) ST) as [MD|(e & MD & F)];
        rewrite MD; [|right; eauto]. fold m. fold c.
      set (w1 := window (c_off s) (c_left s) E).
      assert (length w1 = if skip then 0 else elen) as LW1.
      { unfold w1. rewrite length_window, LE. unfold skip, elen.
        destruct (Nat.leb_spec el (c_off s)); lia. }
      assert (off1 = c_off s - length E) as O1.
      { unfold off1, skip. rewrite LE. destruct (Nat.leb_spec el (c_off s)); lia. }
      assert (left1 = c_left s - length w1) as E1 by (unfold left1; rewrite LW1; destruct skip; lia).
      assert (pos1 = c_pos s + length w1) as P1 by (unfold pos1; rewrite LW1; destruct skip; lia).
      set (w2 := window off1 left1 c).
      pose proof (length_window off1 left1 c) as LW2. fold w2 in LW2.
      assert (length w1 <= c_left s) as BW1.
      { rewrite LW1. unfold elen. destruct skip; lia. }
      set (buf2 := if skip then splice (c_buf s) pos1 w2 else _).
      assert (buf2 = splice (c_buf s) (c_pos s) (w1 ++ w2)) as BUF.
      { unfold buf2. destruct skip eqn:SK.
        - destruct w1; [|cbn in LW1; lia]. rewrite P1. cbn [length app]. now rewrite Nat.add_0_r.
        - replace (firstn elen (skipn (c_off s) (tcg_entry (N.of_nat p) (balgo b) m (length c)))) with w1.
          + rewrite P1. apply splice_app_l. lia.
          + unfold w1, window. fold E. unfold elen. destruct (Nat.le_gt_cases (el - c_off s) (c_left s)).
            * rewrite Nat.min_l by auto. rewrite !firstn_all2; auto; rewrite skipn_length; lia.
            * rewrite Nat.min_r by lia. reflexivity. }
      assert (window (c_off s) (c_left s) (tcg_record content p (balgo b) m) = w1 ++ w2) as W.
      { rewrite tcg_record_eq. fold c. fold E. rewrite window_app. fold w1. rewrite <- O1, <- E1. reflexivity. }
      assert (length (tcg_record content p (balgo b) m) = el + length c) as LR.
      { rewrite tcg_record_eq. fold c. fold E. rewrite app_length, LE. reflexivity. }
      assert (forall off2, (left1 - length w2 = 0 \/ off2 = off1 - length c) ->
        copied (tcg_record content p (balgo b) m) (c_off s) (c_left s) (c_pos s) (c_buf s)
          off2 (left1 - length w2) (pos1 + length w2) buf2) as STEP.
      { intros off2 Ho. unfold copied. rewrite W, !app_length. clear - P1 E1 BUF Ho LR O1 LE. splits; auto.
        - rewrite P1. lia.
        - rewrite E1. lia.
        - rewrite LR. destruct Ho as [Ho|Ho]; [left; auto|right]. rewrite Ho, O1, LE. lia. }
      assert (forall off2 total2, (left1 - length w2 = 0 \/ off2 = off1 - length c) ->
        total2 = c_total s + el + length c ->
        (exists s', tcg_loop flash flash_status n (S i) b (N.of_nat p)
                      (CState off2 (pos1 + length w2) (left1 - length w2) buf2 total2) = Ok s' /\
           copied (tcg_record content p (balgo b) m ++ rest) (c_off s) (c_left s) (c_pos s) (c_buf s)
             (c_off s') (c_left s') (c_pos s') (c_buf s') /\
           (c_left s' = 0 \/ c_total s' = c_total s + length (tcg_record content p (balgo b) m ++ rest))) \/
        (exists e, tcg_loop flash flash_status n (S i) b (N.of_nat p)
                      (CState off2 (pos1 + length w2) (left1 - length w2) buf2 total2) = Err e /\
           bank_faulty flash_status b)) as GO.
      { intros off2 total2 Ho Ht. specialize (STEP off2 Ho).
        destruct (copied_bound _ _ _ _ _ _ _ _ _ STEP B) as (B1 & B2 & B3).
        destruct (IH (S i) (CState off2 (pos1 + length w2) (left1 - length w2) buf2 total2)
                    ltac:(lia) B1) as [(s' & T & C & D)|F]; [left|right; auto].
        exists s'. cbn [c_off c_left c_pos c_buf c_total] in *. split; auto. split.
        - eapply copied_trans; eauto.
        - destruct D as [D|D]; auto. right. rewrite D, app_length, LR. fold rest. lia. }
      cbv beta iota zeta.
      destruct (Nat.ltb_spec 0 (length w2)) as [NZ|NZ].
      + apply GO; auto. lia.
      + destruct (Nat.leb_spec (length c) off1) as [SKP|SKP].
        * apply GO; auto.
        * destruct (Nat.eqb_spec (left1 - length w2) 0) as [Z2|Z2]; [|lia].
          left. eexists. split; [reflexivity|]. cbn [c_off c_left c_pos c_buf c_total]. split; [|left; auto].
          eapply copied_trans; [exact B|exact (STEP 0 (or_introl Z2))|]. rewrite Z2. apply copied_full.
  Qed.

  Lemma pcr_get_tcg_log_spec : forall b p off pos len buf, bank_ok b -> bank_stored flash content b ->
    pos + len <= length buf ->
    (exists s', pcr_get_tcg_log flash flash_status b (N.of_nat p) off pos len buf = Ok s' /\
       copied (bank_records content p b) off len pos buf (c_off s') (c_left s') (c_pos s') (c_buf s') /\
       (c_left s' = 0 \/ c_total s' = length (bank_records content p b))) \/
    (exists e, pcr_get_tcg_log flash flash_status b (N.of_nat p) off pos len buf = Err e /\
       bank_faulty flash_status b).
  Proof.
    intros b p off pos len buf OK ST B. unfold pcr_get_tcg_log, bank_records. destruct (explicit b).
    - left. eexists. split; [reflexivity|]. cbn [c_off c_left c_pos c_buf c_total length].
      split; [apply copied_nil|auto].
    - destruct (tcg_loop_spec b p OK ST (length (mlist b)) 0 (CState off pos len buf 0) eq_refl B) as [A|A];
        [left|right]; auto.
  Qed.

  Lemma store_tcg_loop_spec : forall pcrs i off pos len buf, store_ok pcrs -> store_stored flash content pcrs ->
    pos + len <= length buf ->
    (exists pos' buf' off' len', store_tcg_loop flash flash_status pcrs i off pos len buf = Ok (pos', buf') /\
       copied (store_records content i pcrs) off len pos buf off' len' pos' buf') \/
    (exists e, store_tcg_loop flash flash_status pcrs i off pos len buf = Err e /\
       exists b, In b pcrs /\ bank_faulty flash_status b).
  Proof.
    induction pcrs as [|b t IH]; intros i off pos len buf OK ST B; cbn [store_tcg_loop store_records].
    - left. exists pos, buf, off, len. split; auto. apply copied_nil.
    - destruct (Nat.eqb_spec len 0).
      { subst. left. exists pos, buf, off, 0. split; auto. apply copied_full. }
      inversion OK as [|? ? OKb OKt]; subst.
      destruct (pcr_get_tcg_log_spec b i off pos len buf OKb (ST b (or_introl eq_refl)) B)
        as [(c & E & C & D)|(e & E & F)]; rewrite E.
      2:{ right. exists e. split; auto. exists b. split; [left|]; auto. }
      assert (store_stored flash content t) as STt by (intros x Hx; apply ST; right; auto).
      destruct (copied_bound _ _ _ _ _ _ _ _ _ C B) as (B1 & B2 & B3).
      assert (forall o', (c_left c = 0 \/ o' = off - length (bank_records content i b)) ->
        copied (bank_records content i b) off len pos buf o' (c_left c) (c_pos c) (c_buf c)) as C'.
      { intros o' Ho. unfold copied in *. intuition. }
      destruct C as (C1 & C2 & C3 & C4).
      destruct (Nat.eqb_spec (c_pos c - pos) 0) as [Z|Z].
      + assert (c_left c = len) as CL by lia.
        destruct D as [D|D]; [lia|].
        assert (length (bank_records content i b) <= off) as SK.
        { pose proof (length_window off len (bank_records content i b)). lia. }
        rewrite D. destruct (Nat.leb_spec (length (bank_records content i b)) off); [|lia].
        assert (c_pos c = pos) as CP by lia.
        destruct (IH (S i) (off - length (bank_records content i b)) pos len (c_buf c) OKt STt ltac:(lia))
          as [(p' & b' & o' & l' & E2 & CC)|(e & E2 & b0 & ? & ?)]; rewrite E2.
        * left. exists p', b', o', l'. split; auto. rewrite <- CL, <- CP in CC.
          eapply copied_trans; [exact B|apply C'; right; reflexivity|exact CC].
        * right. exists e. split; auto. exists b0. split; [right|]; auto.
      + replace (pos + (c_pos c - pos)) with (c_pos c) by lia.
        replace (len - (c_pos c - pos)) with (c_left c) by lia.
        destruct (IH (S i) 0 (c_pos c) (c_left c) (c_buf c) OKt STt B1)
          as [(p' & b' & o' & l' & E2 & CC)|(e & E2 & b0 & ? & ?)]; rewrite E2.
        * left. exists p', b', o', l'. split; auto.
          eapply copied_trans; [exact B|apply C'|exact CC].
          pose proof (length_window off len (bank_records content i b)). lia.
        * right. exists e. split; auto. exists b0. split; [right|]; auto.
  Qed.

  Lemma algos_used_spec : forall s seen, NoDup seen ->
    NoDup (algos_used s seen) /\
    forall a, In a (algos_used s seen) <-> In a seen \/ exists b, In b s /\ balgo b = a.
  Proof.
    induction s as [|b t IH]; intros seen ND; cbn [algos_used].
    - split; auto. intros. split; [auto|]. intros [?|(? & [] & _)]; auto.
    - destruct (existsb (algo_eqb (balgo b)) seen) eqn:E.
      + assert (In (balgo b) seen) as IN.
        { apply existsb_exists in E. destruct E as (x & ? & EX). apply algo_eqb_eq in EX. congruence. }
        destruct (IH seen ND) as [A1 A2]. split; auto. intros a. rewrite A2. split.
        * intros [?|(x & ? & ?)]; auto. right. exists x. split; [right|]; auto.
        * intros [?|(x & [->|?] & <-)]; auto. right. eauto.
      + assert (~ In (balgo b) seen) as NI.
        { intros HI. assert (existsb (algo_eqb (balgo b)) seen = true); [|congruence].
          apply existsb_exists. exists (balgo b). split; auto. now apply algo_eqb_eq. }
        assert (NoDup (seen ++ [balgo b])) as ND'.
        { apply NoDup_Add with (a := balgo b) (l := seen); [|split; auto].
          pose proof (Add_app (balgo b) seen []) as A. rewrite app_nil_r in A. exact A. }
        destruct (IH _ ND') as [A1 A2]. split; auto. intros a. rewrite A2, in_app_iff. cbn [In]. split.
        * intros [[?|[<-|[]]]|(x & ? & ?)]; auto; right; eauto.
        * intros [?|(x & [->|?] & <-)]; auto. right. eauto.
  Qed.

  Lemma tcg_header_eq : forall s, tcg_header s = spec_id_event (algos_used s []).
  Proof.
    intros. unfold tcg_header, spec_id_event. cbv zeta. rewrite !le32_bytes. rewrite flat_map_concat_map.
    unfold tcg_signature. do 5 f_equal. 
  Qed.
  Lemma tcg_v1_event_eq : forall s, tcg_v1_event s = no_action_event (algos_used s []).
  Proof.
    intros. unfold tcg_v1_event, no_action_event. rewrite !le32_bytes, tcg_header_eq. reflexivity.
  Qed.

  Lemma store_get_tcg_log_spec : forall s off len buf, store_ok s -> store_stored flash content s ->
    len <= length buf ->
    exists algs, algorithms_of s algs /\
    (store_get_tcg_log flash flash_status s off len buf = Ok (read_result (tcg_log content algs s) off len buf) \/
     (exists e, store_get_tcg_log flash flash_status s off len buf = Err e /\
        exists b, In b s /\ bank_faulty flash_status b)).
  Proof.
    intros s off len buf OK ST B. exists (algos_used s []). split.
    { destruct (algos_used_spec s [] (NoDup_nil _)) as [A1 A2]. split; auto. intros. rewrite A2. cbn [In].
      split; [intros [[]|?]|]; auto. }
    unfold store_get_tcg_log, tcg_log.
    destruct (copy_segments _ _ _ _ _) as [[[o l] p] bf] eqn:E.
    apply copy_segments_copied in E; [|lia].
    cbn [concat] in E. rewrite app_nil_r, tcg_v1_event_eq, tcg_header_eq in E.
    destruct (copied_bound _ _ _ _ _ _ _ _ _ E ltac:(lia)) as (B1 & B2 & B3).
    destruct (store_tcg_loop_spec s 0 o p l bf OK ST B1) as [(p' & b' & o' & l' & E2 & C)|F]; [left|right; auto].
    rewrite E2. f_equal. eapply copied_read_result. rewrite app_assoc.
    eapply copied_trans; [lia|exact E|exact C].
  Qed.
End Data.
