(** Without faults an acceptable image is installed. *)
From Coq Require Import List NArith ZArith Lia Bool Arith ZifyBool ZifyNat ZifyN.
From Verif Require Import Base Flash_Base FlashUtil_Model FlashUtil_Proofs FlashUtil_Total_Proofs FlashUpdater_Model FlashUpdater_Proofs
  FwUpdate_Model FwUpdate_Spec FwUpdate_Flash_Proofs FwUpdate_Proofs FwUpdate_History_Proofs.
Import ListNotations.
Local Open Scope N_scope.

Section Works.
Variable fmt : image -> N -> option fwinfo.
Variable hash : nat -> list N -> list N.
Variable c : fcfg.
Variable oracle : nat -> env.
Hypothesis Hfmt : image_format fmt (c_size c - c_off c).
Hypothesis Hlay : layout c.
Hypothesis Hpage : c_page_fails c = false.
Hypothesis Hmax : c_page c <= MAX_COPY_BLOCK.
Hypothesis Hw : forall k, works c (oracle k).

Lemma erase_ok : forall a len s s' r, erase c oracle a len s = (s', r) -> r = Ok tt.
Proof.
  intros a len s s' r H. unfold erase, bind, ask, get, set_mem, ret, fail in H.
  cbn [s_mem s_fw s_rev s_tick s_bad s_rrev s_upd s_digest s_len s_applied] in H.
  destruct (Hw (s_tick s)) as (W1 & W2 & W3 & W4). set (e := oracle (s_tick s)) in *.
  pose proof (erase_and_verify_total (e_read e) (e_erase e) W2 W3 (c_blk c) (s_mem s) a len (lay_blk c Hlay)) as T.
  destruct (erase_and_verify (e_read e) (e_erase e) (c_blk c) (s_mem s) a len) as [m x]. cbn [snd] in T. subst x.
  congruence.
Qed.

Lemma copy_ok : forall dest src len er s m' x, bytes_img (s_mem s) ->
  (er = false -> blank_on (s_mem s) dest (N.of_nat len)) -> dest + N.of_nat len <= 2 ^ 32 -> src + N.of_nat len <= 2 ^ 32 ->
  copy_region (e_read (oracle (s_tick s))) (e_erase (oracle (s_tick s))) (e_write (oracle (s_tick s))) (Some (s_mem s)) (s_mem s)
    dest src len er (c_blk c) (c_blk c) (c_page c) true = (m', x) -> x = FuOk.
Proof.
  intros dest src len er s m' x B Hb L1 L2 H. destruct (Hw (s_tick s)) as (W1 & W2 & W3 & W4). set (e := oracle (s_tick s)) in *.
  pose proof (copy_region_total (e_read e) (e_erase e) (e_write e) W2 W3 (c_page c) W4 (Some (s_mem s)) (s_mem s) dest src len er
    (c_blk c) true (lay_page c Hlay) Hmax (lay_blk c Hlay) B B ltac:(auto) ltac:(discriminate) L1 L2) as T.
  rewrite H in T. exact T.
Qed.

Lemma copy_blank_ok : forall dest src len s s' r, bytes_img (s_mem s) -> blank_on (s_mem s) dest (N.of_nat len) ->
  dest + N.of_nat len <= 2 ^ 32 -> src + N.of_nat len <= 2 ^ 32 ->
  copy_blank c oracle dest src len s = (s', r) -> r = Ok tt.
Proof.
  intros dest src len s s' r B Hb L1 L2 H. unfold copy_blank, bind, ask, get, set_mem, ret, fail in H.
  cbn [s_mem s_fw s_rev s_tick s_bad s_rrev s_upd s_digest s_len s_applied] in H.
  match type of H with context [copy_region ?a ?b ?d ?e ?f ?g ?h ?i ?j ?k ?l ?m ?n] =>
    destruct (copy_region a b d e f g h i j k l m n) as [m' x] eqn:E end.
  apply copy_ok in E; auto. subst x. congruence.
Qed.

Lemma copy_over_ok : forall dest src len s s' r, bytes_img (s_mem s) ->
  dest + N.of_nat len <= 2 ^ 32 -> src + N.of_nat len <= 2 ^ 32 ->
  copy_over c oracle dest src len s = (s', r) -> r = Ok tt.
Proof.
  intros dest src len s s' r B L1 L2 H. unfold copy_over, bind, ask, get, set_mem, ret, fail in H.
  cbn [s_mem s_fw s_rev s_tick s_bad s_rrev s_upd s_digest s_len s_applied] in H.
  match type of H with context [copy_region ?a ?b ?d ?e ?f ?g ?h ?i ?j ?k ?l ?m ?n] =>
    destruct (copy_region a b d e f g h i j k l m n) as [m' x] eqn:E end.
  apply copy_ok in E; auto; [|discriminate]. subst x. congruence.
Qed.

Lemma program_ok : forall dest src len s s' r, bytes_img (s_mem s) -> blank_on (s_mem s) dest (N.of_nat len) ->
  dest + N.of_nat len <= 2 ^ 32 -> src + N.of_nat len <= 2 ^ 32 ->
  program_bootable c oracle dest src len s = (s', r) -> r = Ok tt.
Proof.
  intros dest src len s s' r B Hb L1 L2 H. unfold program_bootable in H.
  destruct (Nat.ltb_spec (N.to_nat (c_page c)) len) as [L|L]; [|now apply copy_blank_ok in H].
  apply bind_cases in H. destruct H as [(s1 & [] & H1 & H)|(e & H1 & ->)].
  - pose proof (lay_page c Hlay) as Pp.
    apply (copy_blank_spec fmt c oracle (lay_blk c Hlay) Pp (lay_size c Hlay)) in H1; auto. destruct H1 as (_ & B1 & O & _).
    apply copy_blank_ok in H; auto; try lia. intros x Hx. rewrite O by lia. apply Hb. lia.
  - apply copy_blank_ok in H1; [discriminate|auto|intros x Hx; apply Hb; lia|lia|lia].
Qed.

Lemma call_ok : forall x s s' r, call oracle x s = (s', r) -> r = Ok tt.
Proof.
  intros x s s' r H. unfold call, bind, ask, ret, fail in H. destruct (Hw (s_tick s)) as (W1 & _). rewrite W1 in H. congruence.
Qed.

Lemma place_ok : forall dest src len s s' r, region c dest -> region c src -> bytes_img (s_mem s) ->
  N.of_nat len + c_off c <= c_size c ->
  (erase c oracle dest (len + N.to_nat (c_off c)) ;;;
   program_bootable c oracle (dest + c_off c) (src + c_off c) len ;;; finalize c oracle dest) s = (s', r) -> r = Ok tt.
Proof.
  intros dest src len s s' r R Rs B L H. pose proof R as (_ & R2). pose proof Rs as (_ & R3).
  apply bind_cases in H. destruct H as [(s1 & [] & H1 & H)|(e & H1 & ->)].
  2:{ apply erase_ok in H1. discriminate. }
  apply (erase_spec fmt c oracle (lay_blk c Hlay) (lay_size c Hlay) dest) in H1; auto; try lia. destruct H1 as (_ & B1 & _ & Bl).
  specialize (Bl eq_refl).
  apply bind_cases in H. destruct H as [(s2 & [] & H2 & H)|(e & H2 & ->)].
  2:{ apply program_ok in H2; [discriminate|auto|intros x Hx; apply Bl; lia|lia|lia]. }
  unfold finalize, bind, ask, get, set_mem, ret, fail in H. destruct (Hw (s_tick s2)) as (W1 & _). rewrite W1 in H. congruence.
Qed.

Lemma load_ok : forall a i s s' r, fmt (s_mem s) a = Some i -> load fmt oracle a s = (s', r) -> r = Ok tt.
Proof.
  intros a i s s' r F H. unfold load, bind, ask, get, set_fw, fail in H. cbn [s_mem] in H.
  destruct (Hw (s_tick s)) as (W1 & _). rewrite W1, F in H. congruence.
Qed.

Lemma size_ok : forall i n s s' r, s_fw s = Some i -> i_size i = Some n -> image_size oracle s = (s', r) -> r = Ok n.
Proof.
  intros i n s s' r F I H. unfold image_size, bind, ask, get, ret, fail in H. cbn [s_fw] in H.
  destruct (Hw (s_tick s)) as (W1 & _). rewrite F, I, W1 in H. congruence.
Qed.

Lemma write_ok : forall dest backup src len s s' r gd, region c dest -> region c src -> bytes_img (s_mem s) ->
  N.of_nat len + c_off c <= c_size c ->
  (forall b, backup = Some b -> region c b /\ apart (c_size c) b dest /\
     exists i n, fmt (s_mem s) (dest + c_off c) = Some i /\ i_size i = Some n) ->
  write_image fmt c oracle dest backup src len s = (s', (r, gd)) -> r = Ok tt.
Proof.
  intros dest backup src len s s' r gd R Rs B L Hb H. unfold write_image in H.
  set (P := match backup with
         | None => ret 0%nat
         | Some b =>
           load fmt oracle (dest + c_off c) ;;;
           n <- image_size oracle ;;
           copy_over c oracle (b + c_off c) (dest + c_off c) n ;;;
           ret n
         end) in *.
  assert (PB: forall s1 q, P s = (s1, q) -> bytes_img (s_mem s1) /\ exists n, q = Ok n).
  { intros s1 q E. unfold P in E. destruct backup as [b|].
    2:{ unfold ret in E. injection E as <- <-. eauto. }
    destruct (Hb b eq_refl) as (Rb & A & i & n & F & I). pose proof (size_fits fmt c Hfmt Hlay _ _ _ _ F I) as Ln.
    pose proof R as (_ & R2). pose proof Rb as (Rb1 & R3).
    apply bind_cases in E. destruct E as [(s2 & [] & E1 & E)|(e & E1 & ->)].
    2:{ apply (load_ok _ i) in E1; auto. discriminate. }
    apply load_spec in E1. destruct E1 as (_ & M1 & X). destruct (X eq_refl) as (i' & F' & F2). assert (i' = i) by congruence. subst i'.
    apply bind_cases in E. destruct E as [(s3 & k & E2 & E)|(e & E2 & ->)].
    2:{ apply (size_ok i n) in E2; auto. discriminate. }
    pose proof (size_ok i n _ _ _ F2 I E2) as Q. injection Q as ->. apply size_spec in E2. destruct E2 as (_ & M2 & _).
    apply bind_cases in E. destruct E as [(s4 & [] & E3 & E)|(e & E3 & ->)].
    2:{ apply copy_over_ok in E3; [discriminate|now rewrite M2, M1|lia|lia]. }
    unfold ret in E. injection E as <- <-.
    apply (copy_over_spec fmt c oracle (lay_blk c Hlay) (lay_page c Hlay) (lay_size c Hlay) b) in E3; auto; try lia; [|now rewrite M2, M1].
    split; [apply E3|eauto]. }
  clearbody P. destruct (P s) as [s1 q]. destruct (PB s1 q eq_refl) as (B1 & k & ->).
  unfold query_page in H. rewrite Hpage in H. unfold ret in H.
  apply replace_as_place in H. destruct H as (s2 & r2 & H & -> & _). now apply (place_ok dest src len s1 s2).
Qed.

Lemma received_ok : forall s s' r i n, acceptable fmt hash c s i n -> (s_digest s <> None -> s_len s <> 0) ->
  check_received hash c oracle (c_staging c) s = (s', r) -> r = Ok tt.
Proof.
  intros s s' r i n (A1 & A2 & _) HD H. unfold check_received, bind, get, fail, ret, ask in H. cbv zeta in A2. rewrite A1 in H.
  cbn [Z.ltb Z.compare] in H. destruct (s_digest s) as [[ty d]|] eqn:D; [|congruence].
  cbn [s_mem s_len s_tick] in H. destruct (Hw (s_tick s)) as (W1 & W2 & _).
  specialize (HD ltac:(discriminate)). specialize (A2 ty d eq_refl).
  destruct (N.eqb_spec (s_len s) 0); [contradiction|]. rewrite W1 in H. cbn [negb orb] in H.
  rewrite hash_stream_total in H by auto. destruct (list_eq_dec _ _ _) as [Q|Q]; [congruence|]. exfalso. apply Q. now rewrite <- A2.
Qed.

Lemma accepted_ok : forall s s' r i n, acceptable fmt hash c s i n -> (s_digest s <> None -> s_len s <> 0) ->
  load_and_verify fmt hash c oracle (c_staging c) true false true true true s = (s', r) ->
  exists z, r = Ok (n, z).
Proof.
  intros s s' r i n AC HD H. pose proof AC as (_ & _ & F & I & V & K & R). cbv zeta in *. unfold load_and_verify in H.
  apply bind_cases in H. destruct H as [(s1 & [] & H1 & H)|(e & H1 & ->)].
  2:{ apply (received_ok s s' _ i n) in H1; auto. discriminate. }
  apply received_spec in H1. destruct H1 as (C1 & M1 & _).
  apply bind_cases in H. destruct H as [(s2 & [] & H2 & H)|(e & H2 & ->)].
  2:{ apply (load_ok _ i) in H2; [discriminate|now rewrite M1]. }
  apply load_spec in H2. destruct H2 as (C2 & M2 & X). destruct (X eq_refl) as (i' & F' & F2).
  rewrite M1 in F'. assert (i' = i) by congruence. subst i'. clear X.
  assert (AL: allowed (s_rev s2) i = true). { apply allowed_good. split; [auto|]. rewrite (proj1 C2), (proj1 C1). auto. }
  apply bind_cases in H. destruct H as [(s3 & [] & H3 & H)|(e & H3 & ->)].
  2:{ unfold verify, bind, ask, get, ret, fail in H3. cbn [s_fw s_rev s_tick] in H3. rewrite F2, AL in H3.
      destruct (Hw (s_tick s2)) as (W1 & _). rewrite W1 in H3. discriminate. }
  apply verify_spec in H3. destruct H3 as (C3 & M3 & _). assert (F3: s_fw s3 = Some i) by (rewrite (proj1 C3); auto).
  unfold bind at 1, ret at 1 in H.
  apply bind_cases in H. destruct H as [(s5 & k & H5 & H)|(e & H5 & ->)].
  2:{ apply (size_ok i n) in H5; auto. discriminate. }
  pose proof (size_ok i n _ _ _ F3 I H5) as Q. injection Q as ->. apply size_spec in H5. destruct H5 as (C5 & _ & _).
  assert (F5: s_fw s5 = Some i) by (rewrite (proj1 C5); auto).
  unfold header, bind, get, ret, fail in H. rewrite F5 in H. destruct (i_header i) as [[x|]|]; [|destruct R|].
  - destruct (c_rollback c) eqn:RB.
    + specialize (R eq_refl). destruct (Z.ltb_spec x (c_min_rev c)); [lia|]. cbn in H. injection H as <- <-. eauto.
    + cbn in H. injection H as <- <-. eauto.
  - rewrite R in H. injection H as <- <-. eauto.
Qed.

(** An update of an acceptable image succeeds. *)
Lemma update_ok : forall s s' r i n, inv fmt c s -> stable_manifest c -> acceptable fmt hash c s i n -> i_manifest i <> None ->
  (s_digest s <> None -> s_len s <> 0) ->
  (c_backup c <> None -> exists j k, fmt (s_mem s) (c_active c + c_off c) = Some j /\ i_size j = Some k) ->
  run_update fmt hash c oracle s = (s', r) -> r = Ok tt.
Proof.
  intros s s' r i n I ST AC MN HD HB H. pose proof AC as (_ & _ & F & SZ & V & K & _). cbv zeta in *.
  pose proof (size_fits fmt c Hfmt Hlay _ _ _ _ F SZ) as Ln.
  unfold run_update in H. unfold bind at 1, get in H.
  apply bind_cases in H. destruct H as [(s1 & [k z] & H1 & H)|(e & H1 & ->)].
  2:{ apply (accepted_ok s s' _ i n) in H1; auto. destruct H1. discriminate. }
  destruct (accepted_ok _ _ _ i n AC HD H1) as (z' & Q). injection Q as -> <-.
  apply load_and_verify_spec in H1. destruct H1 as (C & M & _).
  assert (I1: inv fmt c s1) by (now apply (inv_calm fmt c s)). destruct C as (C1 & C2 & C3 & C4 & C5 & C6 & C7).
  assert (AL: allowed (s_rev s) i = true) by (apply allowed_good; auto).
  assert (AP: forall s2 q, apply_update fmt c oracle n s1 = (s2, q) -> exists up, q = Ok up).
  { intros s2 q E. unfold apply_update in E.
    apply bind_cases in E. destruct E as [(t1 & [] & E1 & E)|(e & E1 & ->)]; [|apply call_ok in E1; discriminate].
    apply call_spec in E1. destruct E1 as (D1 & M1 & _).
    apply bind_cases in E. destruct E as [(t2 & [] & E2 & E)|(e & E2 & ->)]; [|apply call_ok in E2; discriminate].
    apply call_spec in E2. destruct E2 as (D2 & M2 & _). unfold bind at 1, get in E.
    assert (MM: s_mem t2 = s_mem s) by congruence.
    assert (G: forall t3 q3, (match c_recovery c with
         | Some r =>
           if s_bad t2 then
             (fun s => match write_image fmt c oracle r None (c_staging c) n s with
                       | (s', (Ok _, good)) => (set_bad (negb good) ;;; ret true) s'
                       | (s', (Err e, _)) => (s', Err e)
                       end)
           else ret false
         | None => ret false
         end) t2 = (t3, q3) -> (exists up, q3 = Ok up) /\ bytes_img (s_mem t3) /\
         (forall x, c_active c <= x < c_active c + c_size c -> s_mem t3 x = s_mem s x)).
    { intros t3 q3 E3. destruct (c_recovery c) as [rr|] eqn:Hr.
      2:{ unfold ret in E3. injection E3 as <- <-. rewrite MM. split; [eauto|]. split; [apply I|auto]. }
      destruct (s_bad t2).
      2:{ unfold ret in E3. injection E3 as <- <-. rewrite MM. split; [eauto|]. split; [apply I|auto]. }
      destruct (write_image fmt c oracle rr None (c_staging c) n t2) as [t4 [q4 gd]] eqn:W.
      destruct (lay_other c Hlay rr (or_intror (or_intror Hr))) as (L1 & L2 & L3).
      pose proof W as W'. apply write_ok in W'; auto using (lay_staging c Hlay); [|rewrite MM; apply I|discriminate]. subst q4.
      apply (write_recovery fmt c oracle Hfmt Hlay Hpage rr None (c_staging c) n i) in W; auto; try (rewrite MM; auto; apply I).
      destruct W as (_ & B4 & _ & _ & _ & _ & _ & A4 & _). rewrite MM in A4.
      unfold bind, set_bad, ret in E3. injection E3 as <- <-. split; [eauto|]. cbn. auto. }
    apply bind_cases in E. destruct E as [(t3 & up & E3 & E)|(e & E3 & ->)].
    2:{ destruct (G _ _ E3) as ((up & X) & _). discriminate. }
    destruct (G _ _ E3) as (_ & B3 & A3). clear G E3. unfold bind in E.
    destruct (write_image fmt c oracle (c_active c) (c_backup c) (c_staging c) n t3) as [t4 [q4 gd]] eqn:W.
    apply write_ok in W; auto using (lay_staging c Hlay), (lay_active c Hlay).
    { subst q4. unfold clear_digest, bind, set_digest, set_len, ret in E. injection E as <- <-. eauto. }
    intros b Hb. destruct (lay_other c Hlay b (or_introl Hb)) as (L1 & L2 & L3). split; [auto|]. split; [auto|].
    destruct (HB ltac:(congruence)) as (j & k & J1 & J2). exists j, k. split; [|auto].
    apply (fmt_written fmt c Hfmt (s_mem s) _ (c_active c) _ j k); auto. unfold holds. apply img_read_ext.
    intros y Hy. apply A3. pose proof (size_fits fmt c Hfmt Hlay _ _ _ _ J1 J2). lia. }
  cbn [fst snd] in H.
  apply bind_cases in H. destruct H as [(s2 & up & H2 & H)|(e & H2 & ->)].
  2:{ destruct (AP _ _ H2). discriminate. }
  clear AP. apply (apply_inv fmt c oracle Hfmt Hlay Hpage n i) in H2; auto; try (rewrite ?M, ?C1; auto; fail).
  rewrite M, C1, C2 in H2. destruct H2 as (I2 & R2 & _ & S2 & _ & X2). destruct (X2 up eq_refl) as (A2 & U1 & U2).
  assert (FA: fmt (s_mem s2) (c_active c + c_off c) = Some i) by (now apply (fmt_written fmt c Hfmt (s_mem s) _ (c_staging c) _ i n)).
  assert (FS: fmt (s_mem s2) (c_staging c + c_off c) = Some i) by (now apply (fmt_written fmt c Hfmt (s_mem s) _ (c_staging c) _ i n)).
  apply bind_cases in H. destruct H as [(s3 & [] & H3 & H)|(e & H3 & ->)].
  2:{ apply (load_ok _ i) in H3; [discriminate|auto]. }
  apply load_spec in H3. destruct H3 as (D3 & M3 & Y). destruct (Y eq_refl) as (i' & F' & F3). clear Y.
  assert (i' = i) by congruence. subst i'.
  assert (PR: forall s4 q, process_revocation fmt c oracle (c_staging c) n (match z with Some x => x | None => s_rrev s end) up s3 = (s4, q) -> q = Ok tt).
  { intros s4 q E. unfold process_revocation in E. unfold bind at 1, get in E. rewrite F3 in E.
    destruct (i_manifest i) as [k|]; [|congruence].
    apply bind_cases in E. destruct E as [(t1 & [] & E1 & E)|(e & E1 & ->)]; [|apply call_ok in E1; discriminate].
    apply call_spec in E1. destruct E1 as (D1 & M1 & _). unfold bind at 1, get in E. unfold bind at 1 in E. unfold bind at 1 in E.
    destruct ((s_rev t1 <? k) || s_bad t1 || _); [|unfold ret in E; congruence].
    assert (Bt: s_bad t1 = s_bad s2). { apply quiet_calm in D1. destruct D1 as (_ & X & _), D3 as (_ & Y & _). congruence. }
    assert (Mt: s_mem t1 = s_mem s2) by congruence.
    apply bind_cases in E. destruct E as [(t2 & [] & E2 & E)|(e & E2 & ->)].
    2:{ destruct (c_recovery c) as [rr|] eqn:Hr; [|discriminate]. destruct up; [discriminate|].
        destruct (write_image fmt c oracle rr (recovery_backup c (s_bad t1)) (c_staging c) n t1) as [t4 [q4 gd]] eqn:W.
        destruct (lay_other c Hlay rr (or_intror (or_intror Hr))) as (L1 & L2 & L3).
        apply write_ok in W; auto using (lay_staging c Hlay); [subst q4; discriminate|rewrite Mt; apply I2|].
        intros b Hb. unfold recovery_backup in Hb. destruct (s_bad t1) eqn:Eb; [discriminate|].
        assert (Hb': c_backup c = Some b \/ c_rec_backup c = Some b) by (destruct (c_rec_backup c); [right|left]; congruence).
        destruct (lay_other c Hlay b ltac:(tauto)) as (K1 & K2 & K3). split; [auto|]. split; [apply apart_sym; now apply (lay_rb c Hlay rr b)|].
        destruct I2 as (_ & _ & I2). destruct (proj1 (I2 rr Hr) ltac:(congruence)) as (j & J1 & J2 & _).
        destruct (proj1 Hfmt _ _ _ J1 J2) as (y & J3). exists j, y. rewrite Mt. auto. }
    unfold bind at 1, set_rrev in E. destruct (s_rev t1 <? k); [|unfold ret in E; congruence].
    unfold bind, get, revoke, bind, ask, get in E. cbn [s_tick] in E.
    destruct (Hw (s_tick t2)) as (W1 & _). rewrite W1 in E. unfold set_rev in E. congruence. }
  apply bind_cases in H. destruct H as [(s4 & [] & H4 & H)|(e & H4 & ->)].
  - unfold applied in H. congruence.
  - apply PR in H4. discriminate.
Qed.

End Works.
