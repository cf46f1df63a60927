(** What requests do to the regions: accesses stay inside, and nothing else changes. *)
From Coq Require Import List NArith ZArith Lia Bool Arith ZifyBool ZifyNat ZifyN.
From Verif Require Import Base Flash_Base FlashUpdater_Model Crc8_Model OcpRecovery_Model OcpRecovery_Spec.
Import ListNotations.

(** Only region [i] is touched, and only inside. *)
Definition touch (i : nat) (r : region) (s s' : store) : Prop :=
  (forall j, j <> i -> mem s' j = mem s j /\ erase_at s' j = erase_at s j) /\
  length (mem s' i) = length (mem s i) /\
  match r_back r with
  | Ram => forall x, flash s' x = flash s x
  | Nor base => mem s' i = mem s i /\ forall x, (x < base \/ base + r_len r <= x)%N -> flash s' x = flash s x
  | Log => False
  end.

Definition pointer_ok (c : config) (i : nat) (r : region) (s : store) : Prop :=
  forall base, r_back r = Nor base ->
    (base <= erase_at s i <= base + r_len r)%N /\ (erase_at s i mod sector c = 0)%N.

Definition same_ctl (d d' : dev) : Prop :=
  active d' = active d /\ proto d' = proto d /\ rstat d' = rstat d /\ reset d' = reset d /\ rctrl d' = rctrl d /\
  ic_cms d' = ic_cms d /\ ic_res d' = ic_res d.

Lemma touch_trans : forall i r s1 s2 s3, touch i r s1 s2 -> touch i r s2 s3 -> touch i r s1 s3.
Proof.
  intros i r s1 s2 s3 (A1 & B1 & C1) (A2 & B2 & C2). repeat split.
  - destruct (A1 j H), (A2 j H); congruence.
  - destruct (A1 j H), (A2 j H); congruence.
  - congruence.
  - destruct (r_back r).
    + intros x. now rewrite C2, C1.
    + contradiction.
    + destruct C1 as [M1 F1], C2 as [M2 F2]. split; [congruence|]. intros x Hx. now rewrite F2, F1.
Qed.

Lemma touch_refl : forall i r s, r_back r <> Log -> touch i r s s.
Proof. intros. unfold touch. repeat split; auto. destruct (r_back r); auto; contradiction. Qed.

Lemma sector_room : forall S e b, (0 < S -> e mod S = 0 -> b mod S = 0 -> e < b -> e + S <= b)%N.
Proof.
  intros S e b HS He Hb L. apply N.mod_divides in He; [|lia]. apply N.mod_divides in Hb; [|lia].
  destruct He as [p ->], Hb as [q ->].
  assert (p < q)%N by nia. nia.
Qed.

Lemma add_mod0 : forall S a b, (S <> 0 -> a mod S = 0 -> b mod S = 0 -> (a + b) mod S = 0)%N.
Proof. intros. rewrite N.add_mod by auto. rewrite H0, H1. now apply N.mod_0_l. Qed.

(** One piece written to flash. *)
Lemma write_flash_safe : forall c f k i base r off data s,
  (flash_size c < 2 ^ 32)%N -> (256 <= sector c)%N -> sane_region c r -> r_back r = Nor base -> pointer_ok c i r s ->
  (off + N.of_nat (length data) <= r_len r)%N ->
  exists st' s', write_flash c f k i base off data s = (st', s') /\ touch i r s s' /\ pointer_ok c i r s'.
Proof.
  intros c f k i base r off data s HF HS SR Bk P L.
  destruct SR as [HL SR]. rewrite Bk in SR. destruct SR as (HL0 & HB & HM & HE).
  destruct (P base Bk) as [P1 P2].
  unfold write_flash.
  set (s1 := if (off =? 0)%N then set_erase i base s else s).
  assert (touch i r s s1) as T1.
  { unfold s1. destruct (off =? 0)%N; [|apply touch_refl; congruence].
    unfold touch. rewrite Bk. cbn. repeat split; auto. now destruct (Nat.eqb_spec j i). }
  assert (base <= erase_at s1 i <= base + r_len r /\ erase_at s1 i mod sector c = 0)%N as [Q1 Q2].
  { unfold s1. destruct (off =? 0)%N; [|auto]. cbn. rewrite Nat.eqb_refl. split; [lia|auto]. }
  clearbody s1.
  assert (forall s2 w, touch i r s s2 -> pointer_ok c i r s2 ->
    touch i r s (set_flash (program (flash s2) (base + off) data w) s2) /\
    pointer_ok c i r (set_flash (program (flash s2) (base + off) data w) s2)) as W.
  { intros s2 w T2 P3. split; [|intros b Hb; exact (P3 b Hb)].
    eapply touch_trans; [exact T2|]. unfold touch. rewrite Bk. cbn. repeat split; auto.
    intros x Hx. unfold program. apply nor_write_out. rewrite firstn_length. lia. }
  assert (pointer_ok c i r s1) as P1'.
  { intros b Hb. rewrite Bk in Hb. injection Hb as <-. auto. }
  destruct (erase_at s1 i <? base + off + N.of_nat (length data))%N eqn:E.
  - destruct (f_erase f k) as [er ok].
    assert (erase_at s1 i / sector c * sector c = erase_at s1 i)%N as EA.
    { pose proof (N.div_mod (erase_at s1 i) (sector c) ltac:(lia)). lia. }
    rewrite EA.
    assert (erase_at s1 i + sector c <= base + r_len r)%N as RM.
    { apply sector_room; [lia|auto|apply add_mod0; auto; lia|lia]. }
    set (s2 := if er then set_flash (nor_erase (flash s1) (erase_at s1 i) (sector c)) s1 else s1).
    assert (touch i r s s2) as T2.
    { unfold s2. destruct er; [|exact T1]. eapply touch_trans; [exact T1|]. unfold touch. rewrite Bk. cbn.
      repeat split; auto. intros x Hx. apply nor_erase_out. lia. }
    assert (erase_at s2 i = erase_at s1 i) as E2 by (unfold s2; destruct er; reflexivity).
    assert (pointer_ok c i r s2) as P3.
    { intros b Hb. rewrite E2. exact (P1' b Hb). }
    clearbody s2.
    destruct ok; cbn [negb]; [|eexists _, _; split; [reflexivity|]; auto].
    destruct (f_size f k); cbn [negb]; [|eexists _, _; split; [reflexivity|]; auto].
    destruct (f_write f k) as [w wok].
    eexists _, _. split; [reflexivity|]. apply W.
    + eapply touch_trans; [exact T2|]. unfold touch. rewrite Bk. cbn. repeat split; auto.
      now destruct (Nat.eqb_spec j i).
    + intros b Hb. rewrite Bk in Hb. injection Hb as <-. cbn. rewrite Nat.eqb_refl, E2.
      unfold w32. rewrite N.mod_small by lia. split; [lia|]. apply add_mod0; [lia|auto|]. apply N.mod_same. lia.
  - destruct (f_write f k) as [w wok]. eexists _, _. split; [reflexivity|]. apply W; auto.
Qed.

Lemma same_ctl_refl : forall d, same_ctl d d.
Proof. intros. repeat split. Qed.

Lemma same_ctl_trans : forall a b c, same_ctl a b -> same_ctl b c -> same_ctl a c.
Proof. unfold same_ctl. intuition congruence. Qed.

Lemma write_loop_safe : forall fuel c f k i r data d,
  (flash_size c < 2 ^ 32)%N -> (256 <= sector c)%N -> sane_region c r -> r_back r <> Log ->
  (r_back r = Ram -> N.of_nat (length (mem (st d) i)) = r_len r) ->
  pointer_ok c i r (st d) -> length data < fuel ->
  exists s' d', write_loop fuel c f k i r data d = Ret (s', d') /\ touch i r (st d) (st d') /\
    pointer_ok c i r (st d') /\ same_ctl d d'.
Proof.
  induction fuel as [|fuel IH]; intros c f k i r data d HF HS SR NL FM P L; [lia|].
  cbn [write_loop].
  set (d1 := if (r_len r <=? ic_off d)%N then _ else d).
  assert (0 < r_len r)%N as H0.
  { destruct SR as [_ SR]. destruct (r_back r); try contradiction; [exact SR|apply SR]. }
  assert (st d1 = st d /\ same_ctl d d1 /\ (ic_off d1 < r_len r)%N) as (S1 & C1 & O1).
  { unfold d1. destruct (r_len r <=? ic_off d)%N eqn:E; repeat split; cbn; lia. }
  clearbody d1.
  set (off := ic_off d1) in *.
  set (wl := Nat.min (length data) (N.to_nat (r_len r - off))).
  assert (forall d2, touch i r (st d) (st d2) -> pointer_ok c i r (st d2) -> same_ctl d d2 ->
    exists s' d', match skipn wl data with
      | [] => Ret (Ok, set_off (w32 (off + up4 (N.of_nat wl))) d2)
      | rest => write_loop fuel c f (S k) i r rest (set_off (w32 (off + up4 (N.of_nat wl))) d2)
      end = Ret (s', d') /\ touch i r (st d) (st d') /\ pointer_ok c i r (st d') /\ same_ctl d d') as NX.
  { intros d2 T P2 C2.
    assert (length (skipn wl data) = 0 \/ length (skipn wl data) < length data) as LL.
    { rewrite skipn_length. unfold wl. lia. }
    destruct (skipn wl data) as [|y t] eqn:E.
    - eexists _, _. split; [reflexivity|]. split; [exact T|]. split; [exact P2|exact C2].
    - destruct LL as [LL|LL]; [cbn in LL; lia|].
      destruct (IH c f (S k) i r (y :: t) (set_off (w32 (off + up4 (N.of_nat wl))) d2) HF HS SR NL)
        as (s' & d' & R & T' & P' & C').
      + intros B. cbn. destruct T as (_ & T & _). rewrite T. auto.
      + exact P2.
      + lia.
      + exists s', d'. split; [exact R|]. split; [eapply touch_trans; eauto|]. split; [auto|].
        eapply same_ctl_trans; [exact C2|]. eapply same_ctl_trans; [|exact C']. repeat split. }
  destruct (r_back r) as [| |base] eqn:Bk; [|contradiction|].
  - rewrite S1. specialize (FM eq_refl).
    replace (N.to_nat off + wl <=? length (mem (st d) i)) with true by (unfold wl; lia).
    apply NX.
    + unfold touch. rewrite Bk. cbn. repeat split; auto.
      * now destruct (Nat.eqb_spec j i).
      * rewrite Nat.eqb_refl, length_splice; auto. rewrite firstn_length. unfold wl. lia.
    + intros b Hb. congruence.
    + destruct C1 as (?&?&?&?&?&?&?). cbn. repeat split; auto.
  - destruct (write_flash_safe c f k i base r off (firstn wl data) (st d1) HF HS SR Bk) as (st' & s' & R & T & P').
    + now rewrite S1.
    + rewrite firstn_length. unfold wl. lia.
    + rewrite R. rewrite S1 in T.
      assert (same_ctl d (set_st s' d1)) as C2 by (destruct C1 as (?&?&?&?&?&?&?); repeat split; cbn; auto).
      destruct st'; try (eexists _, _; split; [reflexivity|]; auto; fail).
      apply NX; auto.
Qed.

(** ** The invariant of the device *)

Definition aligned_rw (c : config) : Prop :=
  forall i r, nth_error (regions c) i = Some r -> writable r -> (r_len r mod 4 = 0 /\ 0 < r_len r)%N.

Definition good (c : config) (d : dev) : Prop :=
  fits c (st d) /\ (forall i r, nth_error (regions c) i = Some r -> pointer_ok c i r (st d)) /\
  length (reset d) = 3 /\ length (rctrl d) = 3.

(** Everything outside the writable regions is as in [s0], and the sizes of the memories. *)
Definition kept (c : config) (s0 s : store) : Prop :=
  (forall i, (forall r, nth_error (regions c) i = Some r -> ~ writable r) -> mem s i = mem s0 i) /\
  (forall i, length (mem s i) = length (mem s0 i)) /\
  (forall x, ~ exposed c x -> flash s x = flash s0 x).

Lemma kept_refl : forall c s, kept c s s.
Proof. repeat split. Qed.

Lemma kept_trans : forall c a b d, kept c a b -> kept c b d -> kept c a d.
Proof.
  intros c a b d (A1 & A2 & A3) (B1 & B2 & B3). repeat split; intros.
  - now rewrite B1, A1.
  - now rewrite B2, A2.
  - now rewrite B3, A3.
Qed.

Lemma touch_kept : forall c i r s s', nth_error (regions c) i = Some r -> writable r -> touch i r s s' -> kept c s s'.
Proof.
  intros c i r s s' N W (A & B & C). repeat split.
  - intros j H. destruct (Nat.eq_dec j i) as [->|NE]; [exfalso; exact (H r N W)|]. now apply A.
  - intros j. destruct (Nat.eq_dec j i) as [->|NE]; auto. f_equal. now apply A.
  - intros x H. destruct (r_back r) as [| |base] eqn:Bk; [auto|contradiction|].
    apply C. destruct (N.lt_ge_cases x base); [auto|]. destruct (N.lt_ge_cases x (base + r_len r)); [|auto].
    exfalso. apply H. exists i, r, base. auto.
Qed.

Lemma write_data_safe : forall c f data d, sane c -> aligned_rw c -> good c d ->
  exists s' d', write_indirect_data c f d data = Ret (s', d') /\ kept c (st d) (st d') /\ good c d' /\
    active d' = active d /\
    (forall i r, i = N.to_nat (ic_cms d) -> nth_error (regions c) i = Some r -> writable r -> touch i r (st d) (st d')).
Proof.
  intros c f data d (HF & HS & _ & SR) AL G. pose proof G as (FI & P & GR & GC). unfold write_indirect_data.
  assert (regions c = match cms c with Some l => l | None => [] end) as RE by reflexivity.
  destruct (cms c) as [l|] eqn:Ec.
  2:{ eexists _, _. split; [reflexivity|]. split; [apply kept_refl|]. split; [exact G|]. split; [reflexivity|].
      intros i r _ Hn. rewrite RE in Hn. destruct i; discriminate. }
  rewrite <- RE. destruct (nth_error (regions c) (N.to_nat (ic_cms d))) as [r|] eqn:En.
  2:{ eexists _, _. split; [reflexivity|]. split; [apply kept_refl|]. split; [exact G|]. split; [reflexivity|].
      intros i r -> Hn. congruence. }
  destruct (negb (r_type r =? REGION_CODE)%N && negb (r_type r =? REGION_RW)%N) eqn:Et.
  { eexists _, _. split; [reflexivity|]. split; [apply kept_refl|]. split; [exact G|]. split; [reflexivity|].
    intros i r' -> Hn W. rewrite En in Hn. injection Hn as <-. unfold writable in W. lia. }
  assert (writable r) as W by (unfold writable; lia).
  assert (sane_region c r) as Sr.
  { rewrite Forall_forall in SR. apply SR. eapply nth_error_In; eauto. }
  assert (r_back r <> Log) as NL.
  { intros Q. destruct Sr as [_ Sr]. rewrite Q in Sr. destruct (AL _ _ En W). lia. }
  destruct (write_loop_safe (S (length data)) c f 0 (N.to_nat (ic_cms d)) r data d HF HS Sr NL) as (s' & d' & R & T & P' & C').
  - intros B. exact (FI _ _ En B).
  - exact (P _ _ En).
  - lia.
  - exists s', d'. split; [exact R|]. split; [eapply touch_kept; eauto|]. split; [|split].
    + split; [|split].
      * intros j rj Hn B. rewrite <- (FI j rj Hn B). f_equal.
        destruct T as (T1 & T2 & _). destruct (Nat.eq_dec j (N.to_nat (ic_cms d))) as [->|NE]; auto.
        f_equal. now apply T1.
      * intros j rj Hn. destruct (Nat.eq_dec j (N.to_nat (ic_cms d))) as [->|NE].
        { rewrite En in Hn. injection Hn as <-. exact P'. }
        intros b Hb. destruct T as (T1 & _). destruct (T1 j NE) as [_ ->]. exact (P j rj Hn b Hb).
      * destruct C' as (?&?&?&->&->&?&?). auto.
    + apply C'.
    + intros j rj -> Hn _. rewrite En in Hn. injection Hn as <-. exact T.
Qed.

Lemma good_ctl : forall c d d', st d' = st d -> length (reset d') = 3 -> length (rctrl d') = 3 -> good c d -> good c d'.
Proof. intros c d d' E A B (F & P & _ & _). unfold good. rewrite E. auto. Qed.

Lemma note_write_st : forall s d, st (note_write s d) = st d /\ reset (note_write s d) = reset d /\
  rctrl (note_write s d) = rctrl d /\ istat (note_write s d) = istat d /\ ic_off (note_write s d) = ic_off d /\
  ic_cms (note_write s d) = ic_cms d.
Proof. intros s d. destruct s; repeat split. Qed.

Lemma write_request_safe : forall c f data d, sane c -> aligned_rw c -> good c d ->
  exists s' d' ev, write_request c f d data = Ret (s', d', ev) /\ kept c (st d) (st d') /\ good c d' /\
    active d' = 0%N /\ Forall (allowed c) ev /\
    (active d <> CMD_INDIRECT_DATA -> st d' = st d) /\
    (forall i r, i = N.to_nat (ic_cms d) -> nth_error (regions c) i = Some r -> writable r -> touch i r (st d) (st d')).
Proof.
  intros c f data d SA AL G. pose proof G as (FI & P & GR & GC).
  assert (forall s' d' ev, st d' = st d -> length (reset d') = 3 -> length (rctrl d') = 3 -> Forall (allowed c) ev ->
    exists s2 d2 ev2, Ret (s', set_active 0 (note_write s' d'), ev) = Ret (s2, d2, ev2) /\ kept c (st d) (st d2) /\ good c d2 /\
      active d2 = 0%N /\ Forall (allowed c) ev2 /\ (active d <> CMD_INDIRECT_DATA -> st d2 = st d) /\
      (forall i r, i = N.to_nat (ic_cms d) -> nth_error (regions c) i = Some r -> writable r -> touch i r (st d) (st d2))) as D.
  { intros s' d' ev E L1 L2 A. destruct (note_write_st s' d') as (N1 & N2 & N3 & _).
    eexists _, _, _. split; [reflexivity|]. cbn [st set_active]. rewrite N1, E.
    split; [apply kept_refl|]. split.
    { apply (good_ctl c d); cbn; try rewrite N2; try rewrite N3; auto. now rewrite N1. }
    split; [reflexivity|]. split; [auto|]. split; [auto|].
    intros i r -> Hn W. apply touch_refl. intros Q. destruct SA as (_ & _ & _ & SR). rewrite Forall_forall in SR.
    specialize (SR r (nth_error_In _ _ Hn)). destruct SR as [_ SR]. rewrite Q in SR. destruct (AL _ _ Hn W). lia. }
  unfold write_request.
  destruct (active d =? 0)%N; [cbn [bind]; apply D; auto|].
  destruct (active d =? CMD_RESET)%N.
  { cbn [bind]. unfold sized. destruct (length data =? 3).
    2:{ destruct (3 <? length data); cbn [bind]; apply D; auto. }
    unfold write_reset. destruct (negb (nth 2 data 0 =? 0)%N); [cbn [bind]; apply D; auto|].
    destruct (negb (has_forced c) && (nth 1 data 0 =? 15)%N) eqn:EF; [cbn [bind]; apply D; auto|].
    assert ((nth 1 data 0 =? 15)%N = true -> has_forced c = true) as HFR.
    { intros Q. rewrite Q in EF. destruct (has_forced c); auto. }
    destruct (nth 0 data 0 =? 1)%N.
    { destruct (has_reset c) eqn:Hr; cbn [bind]; apply D; auto. constructor; [split; auto|constructor]. }
    destruct (nth 0 data 0 =? 2)%N.
    { destruct (has_mgmt c) eqn:Hr; cbn [bind]; apply D; auto. constructor; [split; auto|constructor]. }
    cbn [bind]. apply D; auto. }
  destruct (active d =? CMD_RECOVERY_CTRL)%N.
  { cbn [bind]. unfold sized. destruct (length data =? 3).
    2:{ destruct (3 <? length data); cbn [bind]; apply D; auto. }
    unfold write_recovery_ctrl. destruct (nth_error (regions c) (N.to_nat (nth 0 data 0%N))) as [r|] eqn:En.
    2:{ cbn [bind]. apply D; auto. }
    destruct (nth 1 data 0 =? 2)%N; [cbn [bind]; apply D; auto|].
    destruct (negb (has_activate c) && ((nth 1 data 0 =? 1) || (nth 2 data 0 =? 15)))%N eqn:EA; [cbn [bind]; apply D; auto|].
    destruct (nth 1 data 0 =? 1)%N eqn:E1; [|cbn [bind]; apply D; auto].
    destruct (r_type r =? REGION_CODE)%N eqn:ET; cbn [negb]; [|cbn [bind]; apply D; auto].
    destruct (nth 2 data 0 =? 15)%N; [|cbn [bind]; apply D; auto].
    cbn [bind]. apply D; auto. constructor; [|constructor]. cbn [allowed]. split.
    - rewrite orb_true_l, andb_true_r in EA. destruct (has_activate c); auto.
    - exists r. split; [auto|lia]. }
  destruct (active d =? CMD_INDIRECT_CTRL)%N.
  { cbn [bind]. unfold sized. destruct (length data =? 6).
    2:{ destruct (6 <? length data); cbn [bind]; apply D; auto. }
    unfold write_indirect_ctrl. destruct (cms c); cbn [bind]; apply D; auto. }
  destruct (active d =? CMD_INDIRECT_DATA)%N eqn:EI.
  { destruct (write_data_safe c f data d SA AL G) as (s' & d' & R & K & G' & A' & T). rewrite R. cbn [bind].
    destruct (note_write_st s' d') as (N1 & N2 & N3 & _).
    eexists _, _, _. split; [reflexivity|]. cbn [st set_active]. rewrite N1. split; [auto|]. split.
    { apply (good_ctl c d'); cbn; try rewrite N2; try rewrite N3; auto; apply G'. }
    split; [reflexivity|]. split; [constructor|]. split; [intros; lia|auto]. }
  destruct (active d =? CMD_VENDOR)%N; cbn [bind]; apply D; auto.
Qed.

(** ** Reads *)

Lemma up4_bound : forall n, (n <= up4 n < n + 4)%N.
Proof.
  intros. unfold up4. pose proof (N.div_mod (n + 3) 4 ltac:(lia)). pose proof (N.mod_lt (n + 3) 4 ltac:(lia)). lia.
Qed.

Lemma up4_252 : forall n, (n <= 252 -> up4 n <= 252)%N.
Proof.
  intros. unfold up4. pose proof (N.div_le_mono (n + 3) 255 4 ltac:(lia) ltac:(lia)). change (255 / 4)%N with 63%N in *. lia.
Qed.

Definition answer_ok (r : rresult) : Prop :=
  match r with Answer bytes n => n <= length bytes <= 255 | Fail _ => True end.

Lemma read_data_safe : forall c e d, sane c -> good c d ->
  (forall off l, a_data e off = Some l -> length l <= 252) ->
  exists r d', read_indirect_data c e d = Ret (r, d') /\ st d' = st d /\ reset d' = reset d /\ rctrl d' = rctrl d /\ answer_ok r.
Proof.
  intros c e d (HF & HS & _ & SR) (FI & P & GR & GC) HD. unfold read_indirect_data.
  assert (regions c = match cms c with Some l => l | None => [] end) as RE by reflexivity.
  destruct (cms c) as [l|] eqn:Ec; [|eexists _, _; repeat split].
  rewrite <- RE. destruct (nth_error (regions c) (N.to_nat (ic_cms d))) as [r|] eqn:En; [|eexists _, _; repeat split].
  assert (sane_region c r) as [HL Sr].
  { rewrite Forall_forall in SR. apply SR. eapply nth_error_In; eauto. }
  cbv zeta.
  assert (forall (d1 : dev) data, st d1 = st d -> reset d1 = reset d -> rctrl d1 = rctrl d -> length data <= 252 ->
    exists r0 d', (if length data <=? 255
      then Ret (Answer (data ++ repeat 0%N (255 - length data)) (N.to_nat (up4 (N.of_nat (length data)))),
                set_off (w32 (ic_off d1 + up4 (N.of_nat (length data)))) d1) else Wild) = Ret (r0, d') /\
      st d' = st d /\ reset d' = reset d /\ rctrl d' = rctrl d /\ answer_ok r0) as FIN.
  { intros d1 data E1 E2 E3 L. replace (length data <=? 255) with true by lia.
    eexists _, _. split; [reflexivity|]. cbn [st reset rctrl set_off set_ictrl]. repeat split; auto;
    rewrite ?app_length, ?repeat_length; pose proof (up4_252 (N.of_nat (length data))); lia. }
  destruct (r_len r =? 0)%N eqn:E0.
  - destruct (r_back r) as [| |base].
    + lia.
    + destruct (a_size e) as [n|]; [|eexists _, _; repeat split].
      set (d1 := if (n <=? ic_off d)%N then _ else d).
      assert (st d1 = st d /\ reset d1 = reset d /\ rctrl d1 = rctrl d) as (S1 & S2 & S3).
      { unfold d1. destruct (n <=? ic_off d)%N; repeat split. }
      destruct (a_data e (ic_off d1)) as [data|] eqn:ED; [|eexists _, _; repeat split; auto].
      apply FIN; eauto.
    + lia.
  - set (d1 := if (r_len r <=? ic_off d)%N then _ else d).
    assert (st d1 = st d /\ reset d1 = reset d /\ rctrl d1 = rctrl d /\ (ic_off d1 < r_len r)%N) as (S1 & S2 & S3 & O).
    { unfold d1. destruct (r_len r <=? ic_off d)%N eqn:EE; repeat split; cbn; lia. }
    destruct (r_back r) as [| |base] eqn:Bk.
    + pose proof (FI _ _ En Bk) as FL. rewrite S1.
      replace (N.to_nat (ic_off d1) + Nat.min (N.to_nat (r_len r - ic_off d1)) 252 <=? length (mem (st d) (N.to_nat (ic_cms d)))) with true by lia.
      apply FIN; auto. unfold window. rewrite firstn_length. lia.
    + lia.
    + destruct (a_flash e); [|eexists _, _; repeat split; auto]. apply FIN; auto. rewrite length_img_read. lia.
Qed.

Lemma note_read_st : forall r d, st (note_read r d) = st d /\ reset (note_read r d) = reset d /\ rctrl (note_read r d) = rctrl d.
Proof. intros [|[]] d; repeat split. Qed.

Lemma read_request_safe : forall c e d, sane c -> good c d ->
  (forall l, a_id e = Some l -> length l <= 255) -> (forall off l, a_data e off = Some l -> length l <= 252) ->
  exists r d', read_request c e d = Ret (r, d') /\ st d' = st d /\ good c d' /\ answer_ok r.
Proof.
  intros c e d SA G HI HD. pose proof G as (FI & P & GR & GC). unfold read_request.
  destruct (active d =? 0)%N; [eexists _, _; split; [reflexivity|]; split; [reflexivity|]; split; [exact G|exact I]|].
  assert (forall r d1, st d1 = st d -> reset d1 = reset d -> rctrl d1 = rctrl d -> answer_ok r ->
    exists r2 d2, Ret (r, set_active 0 (note_read r d1)) = Ret (r2, d2) /\ st d2 = st d /\ good c d2 /\ answer_ok r2) as D.
  { intros r d1 E1 E2 E3 A. destruct (note_read_st r d1) as (N1 & N2 & N3).
    eexists _, _. split; [reflexivity|]. cbn [st set_active]. rewrite N1. split; [auto|]. split; [|auto].
    apply (good_ctl c d); cbn; congruence. }
  destruct (active d =? CMD_PROT_CAP)%N. { cbn [bind]. apply D; auto. cbn. lia. }
  destruct (active d =? CMD_DEVICE_ID)%N.
  { destruct (a_id e) as [l|] eqn:EI; cbn [bind]; apply D; auto. cbn. split; [lia|]. auto. exact I. }
  destruct (active d =? CMD_DEVICE_STATUS)%N.
  { cbn [bind read_device_status]. apply D; auto. unfold answer_ok. split; [lia|].
    set (v := firstn 5 _). assert (length v <= 5) by (unfold v; rewrite firstn_length; lia). clearbody v.
    rewrite !app_length. cbn [length le16]. lia. }
  destruct (active d =? CMD_RESET)%N. { cbn [bind]. apply D; auto. unfold answer_ok. rewrite GR. lia. }
  destruct (active d =? CMD_RECOVERY_CTRL)%N. { cbn [bind]. apply D; auto. unfold answer_ok. rewrite GC. lia. }
  destruct (active d =? CMD_RECOVERY_STATUS)%N. { cbn [bind]. apply D; auto. cbn. lia. }
  destruct (active d =? CMD_INDIRECT_CTRL)%N.
  { destruct (cms c); cbn [bind]; apply D; auto; cbn; lia. }
  destruct (active d =? CMD_INDIRECT_STATUS)%N.
  { unfold read_indirect_status. destruct (cms c) as [l|] eqn:Ec; [|cbn [bind]; apply D; auto; exact I].
    assert (regions c = l) as RE by (unfold regions; now rewrite Ec).
    destruct (nth_error l (N.to_nat (ic_cms d))) as [r|] eqn:En; [|cbn [bind]; apply D; auto; cbn; lia].
    destruct SA as (_ & _ & _ & SR). rewrite Forall_forall in SR. rewrite RE in SR.
    destruct (SR r (nth_error_In _ _ En)) as [_ Sr].
    destruct (r_len r =? 0)%N eqn:E0; [|cbn [bind]; apply D; auto; cbn; lia].
    destruct (r_back r); try lia. destruct (a_size e); cbn [bind]; apply D; auto; cbn; lia. }
  destruct (active d =? CMD_INDIRECT_DATA)%N.
  { destruct (read_data_safe c e d SA G HD) as (r & d1 & R & E1 & E2 & E3 & A). rewrite R. cbn [bind]. now apply D. }
  cbn [bind]. apply D; auto. exact I.
Qed.
