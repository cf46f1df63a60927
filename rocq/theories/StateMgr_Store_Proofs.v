(** Proofs about the non-volatile state manager, part 3: storing and power loss. *)
From Coq Require Import List NArith Lia Bool Arith ZifyBool ZifyNat ZifyN.
From Verif Require Import Base Flash_Base StateMgr_Model StateMgr_Spec StateMgr_Proofs
  StateMgr_Flash_Proofs.
Import ListNotations.
Local Open Scope N_scope.

Ltac splits := repeat match goal with |- _ /\ _ => split end.

Section Store.
Variables base ss K : N.
Hypothesis Hss : ss = 8 * K.
Hypothesis HK : 2 <= K.

Notation ad := (ad base).
Notation val := (val base).
Notation bslot := (bslot base).
Notation live := (live base K).
Notation fresh := (fresh base ss).
Notation good := (good base ss K).
Notation mem_ok := (mem_ok base K).
Notation recovered := (recovered base ss).

Definition flags_ok (m : image) (c : N) (s1 s2 : bool) : Prop :=
  if c <? K then s1 = false /\ (s2 = true -> blank_on m (base + ss) ss)
  else s2 = false /\ (s1 = true -> blank_on m base ss).

Definition inv_fresh (m : image) (s : sm) : Prop :=
  fresh m /\ store_addr s = ad (2 * K - 1) /\ last_nv_stored s = 65535 /\
  sector1_blank s = true /\ sector2_blank s = false.

Definition inv_live (m : image) (s : sm) (c : N) : Prop :=
  live m c /\ mem_ok m c (store_addr s) (last_nv_stored s) /\
  flags_ok m c (sector1_blank s) (sector2_blank s).

Definition inv (d : device) : Prop :=
  let '(m, s) := d in nv_state s < 65536 /\ (inv_fresh m s \/ exists c, inv_live m s c).

Lemma pl_nil_inv : forall m m1, power_loss m [] m1 -> m1 = m.
Proof. intros m m1 H. inversion H; auto. Qed.

Lemma pl_erase_inv : forall m a n m1, 8 <= n -> power_loss m [FErase a n] m1 ->
  m1 = m \/ exists j, 8 <= j /\ j <= n /\ m1 = nor_erase m a j.
Proof.
  intros m a n m1 Hn H. inversion H; subst; auto.
  - match goal with T : torn _ _ _ |- _ => inversion T; subst end. right. eauto.
  - match goal with T : power_loss _ [] _ |- _ => apply pl_nil_inv in T; subst end.
    right. exists n. split; [auto|]. split; [lia|]. reflexivity.
Qed.

Lemma pl_write_inv : forall m a d ops m1, power_loss m (FWrite a d :: ops) m1 ->
  m1 = m \/ (exists k, (4 <= k)%nat /\ m1 = nor_write m a (firstn k d)) \/
  power_loss (nor_write m a d) ops m1.
Proof.
  intros m a d ops m1 H. inversion H; subst; auto.
  match goal with T : torn _ _ _ |- _ => inversion T; subst end. right; left. eauto.
Qed.

Lemma live_range : forall m c, live m c -> c < 2 * K.
Proof. intros m c [(H & _)|(H & _)]; lia. Qed.

Lemma val_bits : forall m c, live m c -> N.testbit (val m c) 6 = false.
Proof.
  intros m c [(H & V & _)|(H & V & _)]; apply V; lia.
Qed.

(** The erase at the end of a store, on a flash whose current entry is [c]. *)
Lemma unused_live : forall m c s, live m c -> (store_addr s <? base + ss) = (c <? K) ->
  (if c <? K then sector2_blank s = true -> blank_on m (base + ss) ss
   else sector1_blank s = true -> blank_on m base ss) ->
  forall ops s', erase_unused base ss false s = (ops, s') ->
  live (flash_run m ops) c /\ val (flash_run m ops) c = val m c /\
  entry_at (flash_run m ops) (ad c) = entry_at m (ad c) /\
  store_addr s' = store_addr s /\ nv_state s' = nv_state s /\ last_nv_stored s' = last_nv_stored s /\
  flags_ok (flash_run m ops) c (sector1_blank s') (sector2_blank s') /\
  (if c <? K then sector2_blank s' = true else sector1_blank s' = true) /\
  (forall m1, power_loss m ops m1 -> live m1 c /\ val m1 c = val m c).
Proof.
  intros m c s HL Hsec Hfl ops s' E.
  pose proof (fun j => erase_other base ss K Hss HK m c j HL) as EO.
  unfold erase_unused in E. rewrite Hsec in E. unfold flags_ok, other_base in *.
  destruct (c <? K) eqn:EC.
  - destruct (sector2_blank s) eqn:B.
    + injection E as <- <-. cbn [flash_run fold_left store_addr nv_state last_nv_stored sector1_blank sector2_blank].
      splits; auto. intros m1 H1; apply pl_nil_inv in H1; subst; auto.
    + injection E as <- <-. cbn [flash_run fold_left flash_do store_addr nv_state last_nv_stored sector1_blank sector2_blank].
      destruct (EO ss) as (A1 & A2 & A3); try lia. splits; auto.
      * intros _. apply nor_erase_blank.
      * intros m1 H. apply pl_erase_inv in H; [|lia]. destruct H as [->|(j & Hj & Hjn & ->)]; auto.
        destruct (EO j) as (? & ? & ?); auto.
  - destruct (sector1_blank s) eqn:B.
    + injection E as <- <-. cbn [flash_run fold_left store_addr nv_state last_nv_stored sector1_blank sector2_blank].
      splits; auto. intros m1 H1; apply pl_nil_inv in H1; subst; auto.
    + injection E as <- <-. cbn [flash_run fold_left flash_do store_addr nv_state last_nv_stored sector1_blank sector2_blank].
      destruct (EO ss) as (A1 & A2 & A3); try lia. splits; auto.
      * intros _. apply nor_erase_blank.
      * intros m1 H. apply pl_erase_inv in H; [|lia]. destruct H as [->|(j & Hj & Hjn & ->)]; auto.
        destruct (EO j) as (? & ? & ?); auto.
Qed.

Definition store_ok (m : image) (s : sm) (ops : list flash_op) (st : store_status) (s' : sm) : Prop :=
  inv (flash_run m ops, s') /\
  nv_state s' = nv_state s /\
  (st = StOk -> recovered (flash_run m ops) = store_word (nv_state s)) /\
  (st <> StOk -> recovered (flash_run m ops) = recovered m) /\
  (forall m1, power_loss m ops m1 ->
     good m1 /\ (recovered m1 = recovered m \/ recovered m1 = store_word (nv_state s))).

Lemma live_good : forall m c, live m c -> good m.
Proof. intros. right. eauto. Qed.

(** No write happens: the erase is all there is. *)
Lemma store_no_write : forall m s c st ops s', inv_live m s c -> nv_state s < 65536 ->
  (st = StOk -> val m c = store_word (nv_state s)) ->
  erase_unused base ss false s = (ops, s') -> store_ok m s ops st s'.
Proof.
  intros m s c st ops s' (HL & HM & HF) Hnv Hst E.
  pose proof (live_range m c HL) as HR.
  assert (Hsec: (store_addr s <? base + ss) = (c <? K)).
  { unfold StateMgr_Flash_Proofs.mem_ok, sector_end, StateMgr_Flash_Proofs.ad in HM.
    destruct (N.ltb_spec c K); destruct (N.ltb_spec (store_addr s) (base + ss)); auto; lia. }
  edestruct (unused_live m c s HL Hsec) as (A1 & A2 & A3 & A4 & A5 & A6 & A7 & A8 & A9); eauto.
  { unfold flags_ok in HF. destruct (c <? K); tauto. }
  assert (R: recovered (flash_run m ops) = recovered m).
  { rewrite (recovered_live base ss K Hss HK _ _ A1), (recovered_live base ss K Hss HK _ _ HL). auto. }
  repeat split.
  - cbn [inv]. rewrite A5. auto.
  - right. exists c. repeat split; auto. rewrite A4, A6.
    unfold StateMgr_Flash_Proofs.mem_ok in *. rewrite A2, A3. auto.
  - auto.
  - intros ->. rewrite R, (recovered_live base ss K Hss HK _ _ HL). auto.
  - auto.
  - destruct (A9 _ H) as (B1 & B2). eapply live_good; eauto.
  - destruct (A9 _ H) as (B1 & B2). left.
    rewrite (recovered_live base ss K Hss HK _ _ B1), (recovered_live base ss K Hss HK _ _ HL). auto.
Qed.

(** A write that leaves the new entry current, followed by the erase. *)
Lemma store_write : forall m s c w s2 ops s',
  good m -> nv_state s < 65536 -> w = store_word (nv_state s) ->
  bslot m c -> c < 2 * K ->
  (forall k, (4 <= k)%nat -> live (nor_write m (ad c) (firstn k (entry_bytes w))) c /\
                             val (nor_write m (ad c) (firstn k (entry_bytes w))) c = w) ->
  store_addr s2 = ad c -> nv_state s2 = nv_state s -> last_nv_stored s2 = w ->
  (if c <? K then sector2_blank s2 = true -> blank_on m (base + ss) ss
   else sector1_blank s2 = true -> blank_on m base ss) ->
  erase_unused base ss false s2 = (ops, s') ->
  store_ok m s (FWrite (ad c) (entry_bytes w) :: ops) StOk s'.
Proof.
  intros m s c w s2 ops s' HG Hnv Hw Hb Hc HW Ha Hn Hl Hfl E.
  destruct (HW 8%nat) as (L1 & V1); [lia|].
  change (firstn 8 (entry_bytes w)) with (entry_bytes w) in *.
  set (m' := nor_write m (ad c) (entry_bytes w)) in *.
  assert (Hsec: (store_addr s2 <? base + ss) = (c <? K)).
  { rewrite Ha. unfold StateMgr_Flash_Proofs.ad.
    destruct (N.ltb_spec c K); destruct (N.ltb_spec (base + 8 * c) (base + ss)); auto; lia. }
  assert (Hwlt: w < 65536) by (subst w; apply store_word_form; auto).
  edestruct (unused_live m' c s2 L1 Hsec) as (A1 & A2 & A3 & A4 & A5 & A6 & A7 & A8 & A9); eauto.
  { destruct (N.ltb_spec c K); intros B; apply Hfl in B; apply blank_write_out; auto;
      change (length (entry_bytes w)) with 8%nat; unfold StateMgr_Flash_Proofs.ad; lia. }
  cbn [flash_run fold_left flash_do]. fold m'. fold (flash_run m' ops).
  assert (R: recovered (flash_run m' ops) = w).
  { rewrite (recovered_live base ss K Hss HK _ _ A1). now rewrite A2. }
  unfold store_ok. cbn [flash_run fold_left flash_do]. fold m'. fold (flash_run m' ops).
  repeat split.
  - cbn [inv]. rewrite A5, Hn. auto.
  - right. exists c. repeat split; auto. rewrite A4, A6, Ha, Hl.
    right. rewrite A2, A3. repeat split; auto. apply (err_write_in base ss K Hss HK); auto.
  - congruence.
  - intros _. now rewrite R, Hw.
  - congruence.
  - apply pl_write_inv in H. destruct H as [->|[(k & Hk & ->)|H]]; auto.
    + destruct (HW k Hk) as (B1 & B2). eapply live_good; eauto.
    + destruct (A9 _ H) as (B1 & B2). eapply live_good; eauto.
  - apply pl_write_inv in H. destruct H as [->|[(k & Hk & ->)|H]]; auto.
    + destruct (HW k Hk) as (B1 & B2). right. rewrite (recovered_live base ss K Hss HK _ _ B1). congruence.
    + destruct (A9 _ H) as (B1 & B2). right. rewrite (recovered_live base ss K Hss HK _ _ B1). congruence.
Qed.

(** Moving to the second sector before the first is full: the old entry stays current until the
    erase takes its first entry away. *)
Lemma store_jump : forall m s c w s2 ops s',
  live m c -> c < K -> c <> K - 1 -> nv_state s < 65536 -> w = store_word (nv_state s) ->
  blank_on m (base + ss) ss ->
  store_addr s2 = ad K -> nv_state s2 = nv_state s -> last_nv_stored s2 = w ->
  sector1_blank s2 = false ->
  erase_unused base ss false s2 = (ops, s') ->
  store_ok m s (FWrite (ad K) (entry_bytes w) :: ops) StOk s'.
Proof.
  intros m s c w s2 ops s' HL HcK Hc1 Hnv Hw Hb2 Ha Hn Hl Hs1 E.
  assert (Hf: stored_form w) by (subst; now apply store_word_form).
  assert (Hwlt: w < 65536) by apply Hf.
  pose proof (fun k => write_second base ss K Hss HK m c w k HL HcK Hb2 Hwlt Hf) as WS. cbn zeta in WS.
  unfold erase_unused in E. rewrite Ha in E.
  destruct (N.ltb_spec (ad K) (base + ss)); [unfold StateMgr_Flash_Proofs.ad in *; lia|].
  rewrite Hs1 in E. injection E as <- <-.
  destruct (WS 8%nat) as (B & V & _ & _ & WE); [lia|].
  change (firstn 8 (entry_bytes w)) with (entry_bytes w) in *.
  destruct (WE ss) as (E1 & E2 & E3); try lia.
  unfold store_ok. cbn [flash_run fold_left flash_do nv_state].
  set (m' := nor_write m (ad K) (entry_bytes w)) in *.
  assert (R: recovered (nor_erase m' base ss) = w).
  { now rewrite (recovered_live base ss K Hss HK _ _ E1). }
  repeat split.
  - cbn [inv nv_state]. rewrite Hn. auto.
  - right. exists K. repeat split; cbn [store_addr last_nv_stored sector1_blank sector2_blank]; auto.
    + right. rewrite E2, E3, Hl. repeat split; auto. apply (err_write_in base ss K Hss HK); auto.
    + unfold flags_ok. destruct (N.ltb_spec K K); [lia|]. split; auto. intros _. apply nor_erase_blank.
  - auto.
  - intros _. now rewrite R.
  - congruence.
  - apply pl_write_inv in H0. destruct H0 as [->|[(k & Hk & ->)|P]].
    + eapply live_good; eauto.
    + destruct (WS k Hk) as (_ & _ & _ & W4 & _). eapply live_good, W4. auto.
    + apply pl_erase_inv in P; [|lia]. fold m' in P. destruct P as [->|(j & Hj & Hjn & ->)].
      * destruct (WS 8%nat) as (_ & _ & _ & W4 & _); [lia|]. eapply live_good, W4. auto.
      * destruct (WE j Hj Hjn) as (Q & _). eapply live_good; eauto.
  - apply pl_write_inv in H0. destruct H0 as [->|[(k & Hk & ->)|P]]; auto.
    + destruct (WS k Hk) as (_ & _ & _ & W4 & _). destruct (W4 Hc1) as (Q1 & Q2). left.
      rewrite (recovered_live base ss K Hss HK _ _ Q1), (recovered_live base ss K Hss HK _ _ HL). auto.
    + apply pl_erase_inv in P; [|lia]. fold m' in P. destruct P as [->|(j & Hj & Hjn & ->)].
      * destruct (WS 8%nat) as (_ & _ & _ & W4 & _); [lia|]. destruct (W4 Hc1) as (Q1 & Q2). left.
        unfold m'. change (entry_bytes w) with (firstn 8 (entry_bytes w)).
        rewrite (recovered_live base ss K Hss HK _ _ Q1), (recovered_live base ss K Hss HK _ _ HL). auto.
      * destruct (WE j Hj Hjn) as (Q1 & Q2 & _). right.
        rewrite (recovered_live base ss K Hss HK _ _ Q1). congruence.
Qed.

Lemma store_nothing : forall m s, inv (m, s) -> store_ok m s [] StWriteFail s.
Proof.
  intros m s H. unfold store_ok. cbn [flash_run fold_left].
  split; [exact H|]. split; [auto|]. split; [discriminate|]. split; [auto|].
  intros m1 P. apply pl_nil_inv in P. subst. split; [|auto].
  destruct H as (_ & [(Hf & _)|(c & (HL & _))]); [left; auto|eapply live_good; eauto].
Qed.

Theorem store_correct : forall m s wf ops st s',
  inv (m, s) -> store base ss wf false m s = (ops, st, s') -> store_ok m s ops st s'.
Proof.
  intros m s wf ops st s' HI E. pose proof HI as (Hnv & Hcase).
  unfold store in E. set (w := store_word (nv_state s)) in *.
  assert (Hf: stored_form w) by (now apply store_word_form).
  assert (Hwlt: w < 65536) by apply Hf.
  assert (Hwb: w <> 65535) by (now apply stored_form_not_blank).
  destruct Hcase as [(Hfr & Ha & Hl & H1 & H2)|(c & HIL)].
  - (* nothing stored yet *)
    rewrite Hl in E. destruct (N.eqb_spec w 65535) as [|_]; [contradiction|].
    rewrite Hl in E. destruct (N.eqb_spec w 65535) as [|_]; [contradiction|].
    cbn [negb] in E. rewrite Ha in E.
    replace (ad (2 * K - 1) + 8) with (base + 2 * ss) in E by (unfold StateMgr_Flash_Proofs.ad; lia).
    rewrite N.eqb_refl in E.
    assert (NB: not_blank base ss s base = false).
    { unfold not_blank. rewrite H1, H2, N.eqb_refl.
      destruct (N.eqb_spec base (base + ss)); [lia|].
      destruct (N.eqb_spec base (base + 2 * ss - 8)); [lia|].
      destruct (N.eqb_spec base (base + ss - 8)); [lia|]. reflexivity. }
    rewrite NB in E. destruct wf; [injection E as <- <- <-; now apply store_nothing|].
    destruct (erase_unused base ss false _) as [ops2 s3] eqn:EU. injection E as <- <- <-.
    assert (A0: base = ad 0) by (unfold StateMgr_Flash_Proofs.ad; lia).
    rewrite A0 at 1.
    assert (B1: blank_on m base ss) by (eapply blank_on_sub; [exact Hfr| |]; lia).
    eapply store_write with (c := 0); [left; auto|auto|reflexivity| | | | | | | |exact EU].
    + apply fresh_slot with (ss := ss) (K := K); auto; lia.
    + lia.
    + intros k Hk. destruct (write_first base ss K Hss HK m w k B1 Hwlt Hf Hk) as (_ & ? & ?). auto.
    + cbn [store_addr]. auto.
    + reflexivity.
    + reflexivity.
    + destruct (N.ltb_spec 0 K); [|lia]. cbn [sector2_blank]. rewrite H2. discriminate.
  - destruct HIL as (HL & HM & HF).
    pose proof (live_range m c HL) as HR.
    assert (HIL: inv_live m s c) by (repeat split; auto).
    (* the verification of an unchanged entry finds nothing wrong *)
    assert (S1: (if w =? last_nv_stored s
       then let '(in_flash, bit_error, refresh) := read_state_bits (entry_at m (store_addr s)) false in
            if negb (in_flash =? w) || bit_error
            then mk_sm (if refresh then next_sector_addr base ss (store_addr s) else store_addr s)
                   (nv_state s) 65535 (sector1_blank s) (sector2_blank s) else s
       else s) = s).
    { destruct (N.eqb_spec w (last_nv_stored s)) as [Q|Q]; auto.
      destruct HM as [(X & _)|(X1 & X2 & X3)]; [congruence|].
      rewrite X2. destruct (read_state_bits_eq (entry_at m (ad c)) false) as (rf & ->).
      rewrite X3. fold (val m c). rewrite <- X1, <- Q, N.eqb_refl. reflexivity. }
    rewrite S1 in E. clear S1.
    destruct (N.eqb_spec w (last_nv_stored s)) as [Q|Q]; cbn [negb] in E.
    + destruct (erase_unused base ss false s) as [ops2 s2] eqn:EU. injection E as <- <- <-.
      eapply store_no_write; eauto. intros _.
      change (val m c = w). destruct HM as [(X & _)|(X1 & X2 & X3)]; congruence.
    + set (next := if store_addr s + 8 =? base + 2 * ss then base else store_addr s + 8) in *.
      destruct (not_blank base ss s next) eqn:NB.
      { destruct (erase_unused base ss false s) as [ops2 s2] eqn:EU. injection E as <- <- <-.
        eapply store_no_write; eauto. discriminate. }
      destruct wf; [injection E as <- <- <-; now apply store_nothing|].
      destruct (erase_unused base ss false _) as [ops2 s3] eqn:EU. injection E as <- <- <-.
      assert (Haddr: store_addr s = ad c \/ store_addr s = ad (sector_end K c)).
      { destruct HM as [(_ & X)|(_ & X & _)]; auto. }
      unfold not_blank in NB. apply orb_false_elim in NB. destruct NB as [NB NB4].
      apply orb_false_elim in NB. destruct NB as [NB NB3].
      apply orb_false_elim in NB. destruct NB as [NB1 NB2].
      unfold flags_ok in HF.
      assert (Hg: good m) by (eapply live_good; eauto).
      destruct (N.ltb_spec c K) as [CK|CK].
      * destruct HF as (F1 & F2).
        destruct (N.eq_dec (store_addr s) (ad (K - 1))) as [AE|AE].
        -- (* to the second sector *)
           assert (NX: next = ad K).
           { unfold next. rewrite AE. unfold StateMgr_Flash_Proofs.ad.
             destruct (N.eqb_spec (base + 8 * (K - 1) + 8) (base + 2 * ss)); lia. }
           rewrite NX in *.
           assert (SB: sector2_blank s = true).
           { destruct (N.eqb_spec (ad K) (base + ss)); [|unfold StateMgr_Flash_Proofs.ad in *; lia].
             now destruct (sector2_blank s). }
           specialize (F2 SB).
           destruct (N.eq_dec c (K - 1)) as [CE|CE].
           ++ eapply store_write with (c := K); [auto|auto|reflexivity| | | | | | | |exact EU]; auto; try lia.
              ** eapply blank_on_sub; [exact F2| |]; unfold StateMgr_Flash_Proofs.ad; lia.
              ** intros k Hk. destruct (write_second base ss K Hss HK m c w k HL CK F2 Hwlt Hf Hk)
                   as (_ & W1 & W2 & _). auto.
              ** destruct (N.ltb_spec K K); [lia|]. cbn [sector1_blank]. congruence.
           ++ eapply store_jump with (c := c); [auto|auto|auto|auto|reflexivity|auto| | | | |exact EU]; auto.
        -- assert (AC: store_addr s = ad c).
           { destruct Haddr as [X|X]; auto. unfold sector_end in X.
             destruct (N.ltb_spec c K); [contradiction|lia]. }
           assert (CN: c <> K - 1) by congruence.
           assert (NX: next = ad (c + 1)).
           { unfold next. rewrite AC. unfold StateMgr_Flash_Proofs.ad.
             destruct (N.eqb_spec (base + 8 * c + 8) (base + 2 * ss)); lia. }
           rewrite NX in *.
           assert (W: forall k, (4 <= k)%nat -> bslot m (c + 1) /\
             live (nor_write m (ad (c + 1)) (firstn k (entry_bytes w))) (c + 1) /\
             val (nor_write m (ad (c + 1)) (firstn k (entry_bytes w))) (c + 1) = w).
           { intros k Hk. apply (write_same base ss K Hss HK); auto; try lia.
             intros CE. apply F2. destruct (sector2_blank s); auto.
             destruct (N.eqb_spec (ad (c + 1)) (base + ss - 8)); [discriminate|].
             unfold StateMgr_Flash_Proofs.ad in *. lia. }
           eapply store_write with (c := c + 1); [auto|auto|reflexivity| | | | | | | |exact EU]; auto; try lia.
           ++ apply (W 8%nat). lia.
           ++ intros k Hk. apply W; auto.
           ++ destruct (N.ltb_spec (c + 1) K); [|lia]. cbn [sector2_blank]. auto.
      * destruct HF as (F1 & F2).
        destruct (N.eq_dec (store_addr s) (ad (2 * K - 1))) as [AE|AE].
        -- (* back to the first sector *)
           assert (NX: next = ad 0).
           { unfold next. rewrite AE. unfold StateMgr_Flash_Proofs.ad.
             destruct (N.eqb_spec (base + 8 * (2 * K - 1) + 8) (base + 2 * ss)); lia. }
           rewrite NX in *.
           assert (SB: sector1_blank s = true).
           { destruct (N.eqb_spec (ad 0) base); [|unfold StateMgr_Flash_Proofs.ad in *; lia].
             now destruct (sector1_blank s). }
           specialize (F2 SB).
           eapply store_write with (c := 0); [auto|auto|reflexivity| | | | | | | |exact EU]; auto; try lia.
           ++ eapply blank_on_sub; [exact F2| |]; unfold StateMgr_Flash_Proofs.ad; lia.
           ++ intros k Hk. destruct (write_first base ss K Hss HK m w k F2 Hwlt Hf Hk) as (_ & ? & ?). auto.
           ++ destruct (N.ltb_spec 0 K); [|lia]. cbn [sector2_blank]. congruence.
        -- assert (AC: store_addr s = ad c).
           { destruct Haddr as [X|X]; auto. unfold sector_end in X.
             destruct (N.ltb_spec c K); [lia|contradiction]. }
           assert (CN: c <> 2 * K - 1) by congruence.
           assert (NX: next = ad (c + 1)).
           { unfold next. rewrite AC. unfold StateMgr_Flash_Proofs.ad.
             destruct (N.eqb_spec (base + 8 * c + 8) (base + 2 * ss)); lia. }
           rewrite NX in *.
           assert (W: forall k, (4 <= k)%nat -> bslot m (c + 1) /\
             live (nor_write m (ad (c + 1)) (firstn k (entry_bytes w))) (c + 1) /\
             val (nor_write m (ad (c + 1)) (firstn k (entry_bytes w))) (c + 1) = w).
           { intros k Hk. apply (write_same base ss K Hss HK); auto; lia. }
           eapply store_write with (c := c + 1); [auto|auto|reflexivity| | | | | | | |exact EU]; auto; try lia.
           ++ apply (W 8%nat). lia.
           ++ intros k Hk. apply W; auto.
           ++ destruct (N.ltb_spec (c + 1) K); [lia|]. cbn [sector1_blank]. auto.
Qed.

Lemma start_inv : forall m, good m ->
  inv (start base ss m) /\ recovered (fst (start base ss m)) = recovered m /\
  nv_state (snd (start base ss m)) = recovered m.
Proof.
  intros m [Hf|(c & HL)].
  - unfold start. rewrite (init_fresh base ss K Hss HK m Hf). cbn [flash_run fold_left flash_do fst snd nv_state].
    assert (F: fresh (nor_erase m base ss)) by (apply blank_erase; exact Hf).
    rewrite !(recovered_fresh base ss K Hss HK) by auto. repeat split; auto; cbn; try lia.
    left. repeat split; auto.
  - unfold start. destruct (init_live base ss K Hss HK m c HL) as (a & last & E & HM). rewrite E.
    cbn [flash_run fold_left fst snd nv_state].
    rewrite (recovered_live base ss K Hss HK _ _ HL). repeat split; auto; cbn [inv nv_state].
    + pose proof (val_bits m c HL) as V6.
      unfold val, rs_val. clear V6.
      assert (forall e, rs_val e < 65536) as Hlt; [|apply Hlt].
      { intro e. unfold rs_val, read_state_bits. fold idx16. rewrite fold_split. fold (raw_val e).
        destruct e as [[[e0 e1] e2] e3]. set (e := (e0, e1, e2, e3)).
        pose proof (raw_val_lt e) as RL.
        assert (G: forall v, v < 65536 -> (if N.land v (SINGLE_BYTE_STATE + MULTI_BYTE_STATE) =? 0
                   then N.lor v MULTI_BYTE_STATE else v) < 65536).
        { intros v Hv. destruct (_ =? 0); auto. apply lt_by_bits. intros k Hk.
          rewrite N.lor_spec, testbit_high by auto. unfold MULTI_BYTE_STATE. change 128 with (2^7).
          apply N.pow2_bits_false. lia. }
        destruct ((raw_val e =? 65535) && negb (e3 =? 65535)); cbn [fst]; apply G; auto.
        apply lt_by_bits. intros k Hk. rewrite N.ldiff_spec, testbit_high by auto. reflexivity. }
    + right. exists c. repeat split; auto. cbn [sector1_blank sector2_blank]. unfold flags_ok.
      destruct (c <? K); split; auto; discriminate.
Qed.

Lemma inv_good : forall m s, inv (m, s) -> good m.
Proof.
  intros m s H. destruct H as [_ [H|[c H]]]; [left; apply H|].
  right. exists c. apply H.
Qed.

Lemma init_power_loss : forall m m1, good m -> power_loss m (fst (init_state base ss m)) m1 ->
  good m1 /\ recovered m1 = recovered m.
Proof.
  intros m m1 [Hf|(c & HL)] P.
  - rewrite (init_fresh base ss K Hss HK m Hf) in P. cbn [fst] in P.
    apply pl_erase_inv in P; [|lia]. destruct P as [->|(j & _ & _ & ->)].
    + split; auto. left; auto.
    + assert (F: fresh (nor_erase m base j)) by (apply blank_erase; exact Hf).
      rewrite !(recovered_fresh base ss K Hss HK) by auto. split; auto. left; auto.
  - destruct (init_live base ss K Hss HK m c HL) as (a & last & E & HM). rewrite E in P.
    cbn [fst] in P. apply pl_nil_inv in P. subst m1. split; auto. eapply live_good; eauto.
Qed.

Theorem history_inv : forall d, history base ss d -> inv d.
Proof.
  intros d H. induction H as [m Hm|d d' Hd IH Hev].
  - apply start_inv. left; auto.
  - destruct Hev as [m s v Hv|m s wf ops st s' E|m s|m s m1 P|m s m1 P].
    + destruct IH as (Hn & Hc). split; [auto|].
      destruct Hc as [X|(c & X)]; [left; exact X|right; exists c; exact X].
    + eapply store_correct in E; eauto. apply E.
    + apply start_inv. eapply inv_good; eauto.
    + destruct (store base ss false false m s) as [[ops st] s'] eqn:E. cbn [fst] in P.
      eapply store_correct in E; eauto. destruct E as (_ & _ & _ & _ & X). apply start_inv, X, P.
    + apply start_inv. eapply init_power_loss; eauto. eapply inv_good; eauto.
Qed.

(** Retrying a rejected store succeeds. *)
Lemma store_retry : forall m s ops s', inv (m, s) -> store base ss false false m s = (ops, StNotBlank, s') ->
  exists ops2 s2, store base ss false false (flash_run m ops) s' = (ops2, StOk, s2).
Proof.
  intros m s ops s' HI E. pose proof HI as (Hnv & Hcase). unfold store in E.
  set (w := store_word (nv_state s)) in *.
  assert (Hwb: w <> 65535) by (apply stored_form_not_blank; now apply store_word_form).
  destruct Hcase as [(Hfr & Ha & Hl & H1 & H2)|(c & HL & HM & HF)].
  - exfalso. rewrite Hl in E. destruct (N.eqb_spec w 65535) as [|_]; [contradiction|].
    rewrite Hl in E. destruct (N.eqb_spec w 65535) as [|_]; [contradiction|].
    cbn [negb] in E. rewrite Ha in E.
    replace (ad (2 * K - 1) + 8) with (base + 2 * ss) in E by (unfold StateMgr_Flash_Proofs.ad; lia).
    rewrite N.eqb_refl in E.
    assert (NB: not_blank base ss s base = false).
    { unfold not_blank. rewrite H1, H2, N.eqb_refl.
      destruct (N.eqb_spec base (base + ss)); [lia|].
      destruct (N.eqb_spec base (base + 2 * ss - 8)); [lia|].
      destruct (N.eqb_spec base (base + ss - 8)); [lia|]. reflexivity. }
    rewrite NB in E. destruct (erase_unused base ss false _). discriminate.
  - pose proof (live_range m c HL) as HR.
    assert (S1: (if w =? last_nv_stored s
       then let '(in_flash, bit_error, refresh) := read_state_bits (entry_at m (store_addr s)) false in
            if negb (in_flash =? w) || bit_error
            then mk_sm (if refresh then next_sector_addr base ss (store_addr s) else store_addr s)
                   (nv_state s) 65535 (sector1_blank s) (sector2_blank s) else s
       else s) = s).
    { destruct (N.eqb_spec w (last_nv_stored s)) as [Q|Q]; auto.
      destruct HM as [(X & _)|(X1 & X2 & X3)]; [congruence|].
      rewrite X2. destruct (read_state_bits_eq (entry_at m (ad c)) false) as (rf & ->).
      rewrite X3. fold (val m c). rewrite <- X1, <- Q, N.eqb_refl. reflexivity. }
    rewrite S1 in E. clear S1.
    destruct (N.eqb_spec w (last_nv_stored s)) as [Q|Q]; cbn [negb] in E.
    { destruct (erase_unused base ss false s). discriminate. }
    set (next := if store_addr s + 8 =? base + 2 * ss then base else store_addr s + 8) in *.
    destruct (not_blank base ss s next) eqn:NB.
    2:{ destruct (erase_unused base ss false _). discriminate. }
    destruct (erase_unused base ss false s) as [ops2 s2] eqn:EU. injection E as <- <-.
    assert (Hsec: (store_addr s <? base + ss) = (c <? K)).
    { unfold StateMgr_Flash_Proofs.mem_ok, sector_end, StateMgr_Flash_Proofs.ad in HM.
      destruct (N.ltb_spec c K); destruct (N.ltb_spec (store_addr s) (base + ss)); auto; lia. }
    edestruct (unused_live m c s HL Hsec) as (A1 & A2 & A3 & A4 & A5 & A6 & A7 & A8 & _); eauto.
    { unfold flags_ok in HF. destruct (c <? K); tauto. }
    unfold store. rewrite A5, A6. fold w. destruct (N.eqb_spec w (last_nv_stored s)); [contradiction|].
    rewrite A6. destruct (N.eqb_spec w (last_nv_stored s)); [contradiction|]. cbn [negb]. rewrite A4.
    fold next.
    assert (NB2: not_blank base ss s2 next = false).
    { assert (AD: exists q, store_addr s = ad q /\ q < 2 * K /\ (q <? K) = (c <? K)).
      { destruct HM as [(_ & [X|X])|(_ & X & _)]; [exists c; auto| |exists c; auto].
        exists (sector_end K c). unfold sector_end in *. destruct (N.ltb_spec c K);
          repeat split; auto; lia. }
      destruct AD as (q & AQ & Hq & Hqc).
      unfold not_blank, next in *. rewrite AQ in *. unfold StateMgr_Flash_Proofs.ad in *.
      unfold flags_ok in *.
      destruct (N.ltb_spec c K).
      - rewrite A8 in *. cbn [negb] in *. rewrite !andb_false_r, !orb_false_r.
        destruct HF as (F1 & F2). destruct A7 as (G1 & G2). rewrite G1. cbn [negb]. rewrite !andb_true_r.
        destruct (N.eqb_spec (base + 8 * q + 8) (base + 2 * ss)); [lia|].
        destruct (N.eqb_spec (base + 8 * q + 8) base); [lia|].
        destruct (N.eqb_spec (base + 8 * q + 8) (base + 2 * ss - 8)); [lia|]. reflexivity.
      - rewrite A8 in *. cbn [negb] in *. rewrite !andb_false_r. cbn [orb]. rewrite orb_false_r.
        destruct A7 as (G1 & G2). rewrite G1. cbn [negb]. rewrite !andb_true_r.
        destruct (N.eqb_spec (base + 8 * q + 8) (base + 2 * ss)).
        + destruct (N.eqb_spec base (base + ss)); [lia|]. destruct (N.eqb_spec base (base + ss - 8)); [lia|]. reflexivity.
        + destruct (N.eqb_spec (base + 8 * q + 8) (base + ss)); [lia|].
          destruct (N.eqb_spec (base + 8 * q + 8) (base + ss - 8)); [lia|]. reflexivity. }
    rewrite NB2.
    match goal with |- context [erase_unused base ss false ?x] =>
      exists (FWrite next (entry_bytes w) :: fst (erase_unused base ss false x)),
             (snd (erase_unused base ss false x)); destruct (erase_unused base ss false x) end.
    reflexivity.
Qed.

End Store.

Lemma run_inv : forall base ss K, ss = 8 * K -> 2 <= K ->
  forall l d v, inv base ss K d -> same_state (recovered base ss (fst d)) v -> Forall op_ok l ->
  let '(d', v') := fold_left (run_op base ss) l (d, v) in
  inv base ss K d' /\ same_state (recovered base ss (fst d')) v'.
Proof.
  intros base ss K Hss HK l. induction l as [|o l IH]; intros d v HI HS HO; [cbn; auto|].
  cbn [fold_left]. pose proof (Forall_inv HO) as O1. apply Forall_inv_tail in HO.
  destruct d as [m s]. cbn [fst] in HS.
  assert (X: let '(d1, v1) := run_op base ss (((m, s) : device), v) o in
             inv base ss K d1 /\ same_state (recovered base ss (fst d1)) v1).
  { destruct o as [x|wf|]; cbn [run_op].
    - split; [|exact HS]. destruct HI as [_ HI]. split; [exact O1|].
      destruct HI as [X|[c X]]; [left; exact X|right; exists c; exact X].
    - destruct (store base ss wf false m s) as [[ops st] s'] eqn:E.
      pose proof (store_correct base ss K Hss HK m s wf ops st s' HI E) as (A & _ & B & C & _).
      split; [exact A|]. cbn [fst]. destruct st.
      + rewrite B by auto. apply store_word_same.
      + rewrite C by discriminate. exact HS.
      + rewrite C by discriminate. exact HS.
    - pose proof (start_inv base ss K Hss HK m) as S.
      destruct S as (A & B & _); [eapply inv_good; eauto|].
      split; [exact A|]. rewrite B. exact HS. }
  destruct (run_op base ss (((m, s) : device), v) o) as [d1 v1]. apply IH; auto; apply X.
Qed.
