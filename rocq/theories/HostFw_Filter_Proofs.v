(** Configuring the SPI filter, and recognising the firmware version. *)
From Coq Require Import List NArith Lia Bool Arith Permutation ZifyBool ZifyNat ZifyN.
From Verif Require Import Base Flash_Base FlashUtil_Model HostFw_Model HostFw_Spec HostFw_Walk_Proofs
  HostFw_Compare_Proofs HostFw_Flash_Proofs.
Import ListNotations.
Local Open Scope N_scope.

Section Filter.
Variable set_ok : N -> bool.

Definition below (f : spi_filter) (id : N) : Prop := forall k, f k <> None -> k <= id.

Lemma set_region_spec : forall f id s e f' r, set_region set_ok f id s e = (f', r) ->
  f id = None -> 
  (r = HfFilter /\ f' = f) \/
  (r = HfOk /\ (forall x, writable_by f' x <-> writable_by f x \/ (s <= x /\ (e = 0 \/ x < e)))).
Proof.
  intros f id s e f' r H N. unfold set_region in H. destruct (set_ok id); injection H as <- <-; [right|left; auto].
  split; auto. intros x. unfold writable_by. split.
  - intros (k & s' & e' & K & K1 & K2). destruct (N.eqb_spec k id) as [->|Ne].
    + injection K as <- <-. auto.
    + left. exists k, s', e'. auto.
  - intros [(k & s' & e' & K & K1 & K2)|K].
    + exists k, s', e'. splits; auto. destruct (N.eqb_spec k id) as [->|]; auto. congruence.
    + exists id, s, e. rewrite N.eqb_refl. splits; auto; tauto.
Qed.

Lemma set_region_below : forall f id s e f' r, set_region set_ok f id s e = (f', r) -> below f (id - 1) -> below f' id.
Proof.
  intros f id s e f' r H B k Hk. unfold set_region in H. destruct (set_ok id); injection H as <- <-.
  - destruct (N.eqb_spec k id); [lia|]. specialize (B k Hk). lia.
  - specialize (B k Hk). lia.
Qed.

Lemma u32_end : forall a x, a <= x -> x < 2 ^ 32 -> forall l, 0 < l -> a + l <= 2 ^ 32 -> 
  (u32 (a + l) = 0 \/ x < u32 (a + l)) <-> x < a + l.
Proof.
  intros a x H1 H2 l H3 H4. unfold u32, W32. change (2 ^ 32) with 4294967296 in *.
  destruct (N.eq_dec (a + l) 4294967296) as [->|Ne].
  - rewrite N.mod_same by lia. lia.
  - rewrite N.mod_small by lia. lia.
Qed.

Lemma filter_each_spec : forall rs f i f' r, Forall fits rs -> i + N.of_nat (length rs) <= 255 -> below f i ->
  filter_each set_ok f i rs = (f', r) ->
  (forall x, x < 2 ^ 32 -> writable_by f' x -> writable_by f x \/ covered rs x) /\
  (forall x, writable_by f x -> writable_by f' x) /\
  (r = HfOk -> forall x, covered rs x -> writable_by f' x) /\
  (r = HfOk \/ r = HfFilter) /\ ((forall k, set_ok k = true) -> r = HfOk).
Proof.
  induction rs as [|p t IH]; intros f i f' r F L B H; cbn [filter_each] in H.
  - injection H as <- <-. splits; auto. intros _ x (q & [] & _).
  - inversion F as [|? ? (F1 & F2) FT]; subst. cbn [length] in L.
    rewrite N.mod_small in H by lia.
    destruct (set_region set_ok f (i + 1) (start p) (u32 (start p + len p))) as [f1 e] eqn:E.
    pose proof (set_region_below _ _ _ _ _ _ E ltac:(replace (i + 1 - 1) with i by lia; auto)) as B1.
    assert (OKE: (forall k, set_ok k = true) -> e = HfOk).
    { intros A. unfold set_region in E. rewrite A in E. congruence. }
    apply set_region_spec in E; [|destruct (f (i + 1)) eqn:Q; auto; exfalso; specialize (B (i + 1)); rewrite Q in B; specialize (B ltac:(discriminate)); lia].
    destruct E as [(-> & ->)|(-> & W)].
    + injection H as <- <-. splits; auto. discriminate.
    + apply IH in H; auto; [|lia]. destruct H as (H1 & H2 & H3 & H4 & H5). splits; auto.
      * intros x X Q. apply H1 in Q; auto. destruct Q as [Q|(q & Hq & C)]; [|right; exists q; split; [now right|auto]].
        apply W in Q. destruct Q as [Q|(Q1 & Q2)]; auto. right. exists p. split; [now left|].
        rewrite u32_end in Q2 by auto. unfold inside. auto.
      * intros x Q. apply H2. apply W. auto.
      * intros R x (q & [<-|Hq] & C); [|apply H3; auto; exists q; auto].
        apply H2. apply W. right. unfold inside in C. split; [lia|]. apply u32_end; lia.
Qed.

(** The merging loop.  [cur] is the region the next turn continues. *)
Section Merge.
Variable rss : list (list region).
Let rs := concat rss.
Hypothesis G : good rs.

Record inv (f : spi_filter) (id : N) (cur : option region) (last total : N) : Prop := mkInv {
  i_sound : forall x, writable_by f x -> covered rs x;
  i_full : forall x r, In r rs -> start r < last -> inside r x ->
             writable_by f x \/ exists p, cur = Some p /\ start p <= x < last;
  i_cur : forall p, cur = Some p -> last = start p + total /\ 0 < total /\ last < 2 ^ 32 /\
             forall x, start p <= x < last -> covered rs x;
  i_sep : forall r, In r rs -> start r < last -> start r + len r <= last;
  i_below : below f id;
  i_room : id + N.of_nat (length (above last rs)) + (match cur with Some _ => 1 | None => 0 end) <= 255 }.

Lemma sep_step : forall last n, (forall r, In r rs -> start r < last -> start r + len r <= last) ->
  finds last rs (Some n) -> forall r, In r rs -> start r < start n + len n -> start r + len r <= start n + len n.
Proof.
  intros last n B (I1 & I2 & I3) r Hr Hs. pose proof (good_disjoint rs G) as (_ & D). destruct G as (P & _).
  rewrite Forall_forall in P. pose proof (P n I1) as PN.
  destruct (N.lt_ge_cases (start r) last); [specialize (B r Hr ltac:(auto)); lia|].
  destruct (region_dec n r) as [<-|Ne]; [lia|].
  pose proof (disjoint_order n r PN (P r Hr) (D n r I1 Hr Ne) (I3 r Hr ltac:(auto))). lia.
Qed.

Lemma filter_merge_spec : forall k f id prev next last total f' o,
  inv f id (match prev with None => next | _ => prev end) last total ->
  filter_merge set_ok k f id prev next last total rss = (f', o) ->
  (forall x, writable_by f' x -> covered rs x) /\
  (o = Some HfOk -> forall x, covered rs x -> writable_by f' x) /\
  ((length (above last rs) < k)%nat -> o = Some HfOk \/ o = Some HfFilter) /\
  ((length (above last rs) < k)%nat -> (forall i, set_ok i = true) -> o = Some HfOk).
Proof.
  pose proof G as (P & _). rewrite Forall_forall in P.
  induction k as [|k IH]; intros f id prev next last total f' o J H; cbn [filter_merge] in H.
  - injection H as <- <-. splits; [apply J|discriminate|lia|lia].
  - set (cur := match prev with None => next | _ => prev end) in *.
    pose proof (find_next_in_finds rss last) as FN. fold rs in FN.
    assert (DONE: find_next_in last rss = None -> forall x, covered rs x -> writable_by f x \/ exists p, cur = Some p /\ start p <= x < last).
    { intros Q x (r & Hr & I1). rewrite Q in FN. eapply (i_full _ _ _ _ _ J); eauto. }
    assert (SET: forall p f1 e, cur = Some p -> set_region set_ok f ((id + 1) mod 256) (start p) (u32 (start p + total)) = (f1, e) ->
      (e = HfFilter /\ f1 = f /\ ~ (forall i, set_ok i = true)) \/
      (e = HfOk /\ (id + 1) mod 256 = id + 1 /\ below f1 (id + 1) /\
       forall x, writable_by f1 x <-> writable_by f x \/ start p <= x < last)).
    { intros p f1 e C E. pose proof (i_room _ _ _ _ _ J) as R. rewrite C in R.
      destruct (i_cur _ _ _ _ _ J p C) as (C1 & C2 & C3 & C4).
      assert (S: (id + 1) mod 256 = id + 1) by (apply N.mod_small; lia). rewrite S in E.
      pose proof (set_region_below _ _ _ _ _ _ E ltac:(replace (id + 1 - 1) with id by lia; apply J)) as B1.
      assert (OKE: (forall k, set_ok k = true) -> e = HfOk).
      { intros A. unfold set_region in E. rewrite A in E. congruence. }
      apply set_region_spec in E.
      - destruct E as [(-> & ->)|(-> & W)].
        + left. splits; auto. intros A. specialize (OKE A). discriminate.
        + right. splits; auto. intros x. rewrite W. rewrite <- C1. unfold u32, W32. rewrite N.mod_small by lia. split; intros [|]; auto; right; lia.
      - destruct (f (id + 1)) eqn:Q; auto. exfalso. pose proof (i_below _ _ _ _ _ J (id + 1)) as B. rewrite Q in B. specialize (B ltac:(discriminate)). lia. }
    assert (NEXT: forall n f1 id1, find_next_in last rss = Some n ->
      (forall x, writable_by f1 x -> covered rs x) ->
      (forall x r, In r rs -> start r < last -> inside r x -> writable_by f1 x) ->
      below f1 id1 -> id1 + N.of_nat (length (above last rs)) <= 255 ->
      inv f1 id1 (Some n) (past n) (len n)).
    { intros n f1 id1 Q S1 S2 B1 R1. rewrite Q in FN. pose proof FN as (I1 & I2 & I3).
      pose proof (P n I1) as PN. pose proof PN as (N1 & N2).
      pose proof (above_step rs last n G FN) as AB.
      rewrite past_proper in * by auto. constructor; auto.
      - intros x r Hr Hs Hi. pose proof (sep_step last n (i_sep _ _ _ _ _ J) FN r Hr Hs) as SS.
        destruct (N.lt_ge_cases (start r) last); [left; eauto|]. right. exists n. split; auto.
        specialize (I3 r Hr ltac:(auto)). unfold inside in Hi. lia.
      - intros p E. injection E as <-. splits; auto. intros x Hx. exists n. split; auto.
      - apply (sep_step last n); auto. apply J.
      - lia. }
    destruct cur as [p|] eqn:CUR.
    + destruct (find_next_in last rss) as [n|] eqn:Q.
      * pose proof FN as (I1 & I2 & I3). pose proof (P n I1) as PN. pose proof PN as (N1 & N2).
        pose proof (above_step rs last n G FN) as AB. rewrite past_proper in AB by auto.
        destruct (N.eqb_spec (start n) last) as [E|E].
        -- destruct (i_cur _ _ _ _ _ J p eq_refl) as (C1 & C2 & C3 & C4). rewrite E in N2, AB.
           assert (U1: u32 (last + len n) = last + len n) by (unfold u32, W32; apply N.mod_small; lia).
           assert (U2: u32 (total + len n) = total + len n) by (unfold u32, W32; apply N.mod_small; lia).
           rewrite U1, U2 in H.
           apply IH in H.
           ++ destruct H as (H1 & H2 & H3 & H4). splits; auto; intros; [apply H3|apply H4]; auto; lia.
           ++ clear IH H. constructor.
              ** apply J.
              ** intros x r Hr Hs Hi. rewrite <- E in Hs.
                 pose proof (sep_step last n (i_sep _ _ _ _ _ J) FN r Hr Hs) as SS. rewrite E in SS.
                 destruct (N.lt_ge_cases (start r) last).
                 --- destruct (i_full _ _ _ _ _ J x r Hr ltac:(auto) Hi) as [W|(q & Q1 & Q2)]; [auto|].
                     right. exists q. split; auto. lia.
                 --- right. exists p. split; auto. unfold inside in Hi. lia.
              ** intros q EQ. injection EQ as <-. splits; try lia. intros x Hx.
                 destruct (N.lt_ge_cases x last); [apply C4; lia|]. exists n. split; auto. unfold inside. lia.
              ** intros r Hr Hs. rewrite <- E in Hs |- *. eapply sep_step; eauto. apply J.
              ** apply J.
              ** pose proof (i_room _ _ _ _ _ J) as RM. cbn beta iota in RM. lia.
        -- destruct (set_region set_ok f ((id + 1) mod 256) (start p) (u32 (start p + total))) as [f1 e] eqn:SR.
           destruct (SET p f1 e eq_refl SR) as [(-> & -> & NA)|(-> & S1 & S2 & S3)].
           ++ injection H as <- <-. splits; [apply J|discriminate|auto|]. intros _ A. destruct (NA A).
           ++ rewrite S1 in H. apply IH in H.
              ** rewrite past_proper in H by auto. destruct H as (H1 & H2 & H3 & H4). splits; auto; intros; [apply H3|apply H4]; auto; lia.
              ** cbn beta iota. apply NEXT; auto.
                 --- intros x W. apply S3 in W. destruct W as [W|W]; [apply J; auto|].
                     apply (i_cur _ _ _ _ _ J p eq_refl); auto.
                 --- intros x r Hr Hs Hi. apply S3. destruct (i_full _ _ _ _ _ J x r Hr Hs Hi) as [W|(q & Q1 & Q2)]; [auto|].
                     right. congruence.
                 --- pose proof (i_room _ _ _ _ _ J) as RM. cbn beta iota in RM. lia.
      * destruct (set_region set_ok f ((id + 1) mod 256) (start p) (u32 (start p + total))) as [f1 e] eqn:SR.
        destruct (SET p f1 e eq_refl SR) as [(-> & -> & NA)|(-> & S1 & S2 & S3)].
        -- injection H as <- <-. splits; [apply J|discriminate|auto|]. intros _ A. destruct (NA A).
        -- injection H as <- <-. splits; auto.
           ++ intros x W. apply S3 in W. destruct W as [W|W]; [apply J; auto|].
              apply (i_cur _ _ _ _ _ J p eq_refl); auto.
           ++ intros _ x C. apply S3. destruct (DONE eq_refl x C) as [W|(q & Q1 & Q2)]; auto. right. congruence.
    + destruct (find_next_in last rss) as [n|] eqn:Q.
      * pose proof FN as (I1 & I2 & I3). pose proof (P n I1) as PN.
        pose proof (above_step rs last n G FN) as AB.
        apply IH in H.
        -- destruct H as (H1 & H2 & H3 & H4). splits; auto; intros; [apply H3|apply H4]; auto; lia.
        -- cbn beta iota. apply NEXT; auto; try apply J.
           ++ intros x r Hr Hs Hi. destruct (i_full _ _ _ _ _ J x r Hr Hs Hi) as [W|(q & Q1 & _)]; [auto|discriminate].
           ++ pose proof (i_room _ _ _ _ _ J) as RM. cbn beta iota in RM. lia.
      * injection H as <- <-. splits; auto; [apply J|].
        intros _ x C. destruct (DONE eq_refl x C) as [W|(q & Q1 & _)]; [auto|discriminate].
Qed.
End Merge.
End Filter.

(** Versions. *)
Lemma strncmp_spec : forall n a b, (forall c, In c (firstn n a) -> c <> 0) -> (n <= length a)%nat -> (n <= length b)%nat ->
  (strncmp n a b = true <-> firstn n a = firstn n b).
Proof.
  induction n as [|n IH]; intros a b Z LA LB; cbn [strncmp firstn]; [split; auto|].
  destruct a as [|x a]; [cbn in LA; lia|]. destruct b as [|y b]; [cbn in LB; lia|].
  cbn [hd tl length firstn] in *. destruct (N.eqb_spec x y) as [->|Ne].
  - assert (y <> 0) by (apply Z; now left). replace (y =? 0) with false by lia.
    rewrite IH by (auto; lia || (intros; apply Z; now right)). split; intros E; [now rewrite E|now injection E].
  - split; [discriminate|]. intros E. injection E as E _. contradiction.
Qed.

Lemma longest_fold : forall vs k v, (In v vs -> (length (v_id v) <= fold_left (fun max v => if (max <? length (v_id v))%nat then length (v_id v) else max) vs k)%nat) /\
  (k <= fold_left (fun max v => if (max <? length (v_id v))%nat then length (v_id v) else max) vs k)%nat.
Proof.
  induction vs as [|w t IH]; intros k v; cbn [fold_left].
  - split; [intros []|lia].
  - destruct (IH (if (k <? length (v_id w))%nat then length (v_id w) else k) v) as (I1 & I2). split.
    + intros [<-|Hv]; [|auto]. destruct (Nat.ltb_spec k (length (v_id w))); lia.
    + destruct (Nat.ltb_spec k (length (v_id w))); lia.
Qed.

Lemma longest_le : forall vs v, In v vs -> (length (v_id v) <= longest vs)%nat.
Proof. intros vs v H. now apply longest_fold. Qed.

Section Version.
Variable rfail : N -> bool.
Variable m : image.
Variable offset : N.

Lemma firstn_splice0 : forall (buf d : list N), firstn (length d) (splice buf 0 d) = d.
Proof.
  intros. unfold splice. cbn [firstn app]. rewrite firstn_app, firstn_all.
  replace (length d - length d)%nat with 0%nat by lia. cbn [firstn]. apply app_nil_r.
Qed.

Lemma length_splice_in : forall (buf d : list N) off, (off + length d <= length buf)%nat -> length (splice buf off d) = length buf.
Proof. intros. unfold splice. rewrite !app_length, firstn_length, skipn_length. lia. Qed.

Lemma firstn_splice_ext : forall (buf d : list N) off, (off <= length buf)%nat ->
  firstn (off + length d) (splice buf off d) = firstn off buf ++ d.
Proof.
  intros. unfold splice. rewrite app_assoc, firstn_app, app_length, firstn_length, Nat.min_l by lia.
  rewrite firstn_all2 by (rewrite app_length, firstn_length; lia).
  replace (off + length d - (off + length d))%nat with 0%nat by lia. cbn [firstn]. apply app_nil_r.
Qed.

Lemma skipn_splice_ext : forall (buf d : list N) off, (off <= length buf)%nat ->
  firstn (length d) (skipn off (splice buf off d)) = d.
Proof.
  intros. unfold splice. rewrite skipn_app, firstn_length, Nat.min_l by lia.
  rewrite (skipn_all2 (firstn off buf)) by (rewrite firstn_length; lia).
  replace (off - off)%nat with 0%nat by lia. cbn [skipn app].
  rewrite firstn_app, firstn_all. replace (length d - length d)%nat with 0%nat by lia. cbn [firstn]. apply app_nil_r.
Qed.

Lemma img_read_firstn : forall a n k, (k <= n)%nat -> firstn k (img_read m a n) = img_read m a k.
Proof.
  intros a n k H. replace n with (k + (n - k))%nat by lia. rewrite img_read_app.
  rewrite firstn_app, length_img_read. replace (k - k)%nat with 0%nat by lia. cbn [firstn].
  rewrite app_nil_r. apply firstn_all2. rewrite length_img_read. lia.
Qed.

Lemma determine_spec : forall vs prev buf vl cap,
  Forall (version_ok offset) vs -> (forall v, In v vs -> (length (v_id v) <= cap)%nat) -> length buf = cap -> (vl <= cap)%nat ->
  (forall a, prev = Some a -> firstn vl buf = img_read m (a + offset) vl) ->
  match determine rfail m offset vs prev buf vl with
  | VFound v => exists l1 l2, vs = l1 ++ v :: l2 /\ on_flash m offset v /\ forall w, In w l1 -> ~ on_flash m offset w
  | VUnsupported => forall w, In w vs -> ~ on_flash m offset w
  | VReadErr => exists a, rfail a = true
  | VOverflow => False
  end.
Proof.
  induction vs as [|v t IH]; intros prev buf vl cap OK CAP LB LV BUF; cbn [determine]; [intros w []|].
  inversion OK as [|? ? (Z & AD) OT]; subst.
  assert (Lv: (length (v_id v) <= length buf)%nat) by (apply CAP; now left).
  assert (CT: forall w, In w t -> (length (v_id w) <= length buf)%nat) by (intros; apply CAP; now right).
  assert (ZF: forall n c, In c (firstn n (v_id v)) -> c <> 0).
  { intros n c Hc. apply Z. rewrite <- (firstn_skipn n (v_id v)). apply in_or_app. now left. }
  assert (ZS: forall n c, In c (skipn n (v_id v)) -> c <> 0).
  { intros n c Hc. apply Z. rewrite <- (firstn_skipn n (v_id v)). apply in_or_app. now right. }
  assert (HIT: on_flash m offset v -> exists l1 l2, v :: t = l1 ++ v :: l2 /\ on_flash m offset v /\ forall w, In w l1 -> ~ on_flash m offset w).
  { intros O. exists [], t. split; [reflexivity|split; [exact O|intros w []]]. }
  assert (GO: forall prev' buf' vl', ~ on_flash m offset v -> length buf' = length buf -> (vl' <= length buf)%nat ->
    (forall a, prev' = Some a -> firstn vl' buf' = img_read m (a + offset) vl') ->
    match determine rfail m offset t prev' buf' vl' with
    | VFound v0 => exists l1 l2, v :: t = l1 ++ v0 :: l2 /\ on_flash m offset v0 /\ forall w, In w l1 -> ~ on_flash m offset w
    | VUnsupported => forall w, In w (v :: t) -> ~ on_flash m offset w
    | VReadErr => exists a, rfail a = true
    | VOverflow => False
    end).
  { intros prev' buf' vl' N L1 L2 B. specialize (IH prev' buf' vl' (length buf) OT CT L1 L2 B).
    destruct (determine rfail m offset t prev' buf' vl'); auto.
    - destruct IH as (l1 & l2 & E & O & K). exists (v :: l1), l2. split; [now rewrite E|split; auto].
      intros w [<-|Hw]; auto.
    - intros w [<-|Hw]; [exact N|auto]. }
  set (cl := length (v_id v)) in *.
  assert (U: u32 (v_addr v + offset) = v_addr v + offset) by (unfold u32, W32; apply N.mod_small; lia).
  destruct (match prev with None => true | Some a => negb (v_addr v =? a) end) eqn:FR.
  - unfold read_into. replace (length buf <? 0 + cl)%nat with false by lia.
    destruct (rfail (u32 (v_addr v + offset))) eqn:RF; [eauto|]. rewrite U.
    set (d := img_read m (v_addr v + offset) cl). assert (LD: length d = cl) by apply length_img_read.
    assert (FS: firstn cl (splice buf 0 d) = d) by (rewrite <- LD; apply firstn_splice0).
    assert (LS: length (splice buf 0 d) = length buf) by (apply length_splice_in; lia).
    destruct (strncmp cl (v_id v) (splice buf 0 d)) eqn:SC.
    + apply HIT. apply strncmp_spec in SC; try lia; try apply ZF.
      rewrite FS in SC. unfold cl in SC at 1. rewrite firstn_all in SC. unfold on_flash. now symmetry.
    + apply GO; auto.
      * intros O. unfold on_flash in O. fold cl in O. fold d in O.
        assert (strncmp cl (v_id v) (splice buf 0 d) = true); [|congruence].
        apply strncmp_spec; try lia; try apply ZF. rewrite FS. unfold cl at 1. rewrite firstn_all. now symmetry.
      * intros a E. injection E as <-. exact FS.
  - destruct prev as [a|]; [|discriminate]. assert (v_addr v = a) by lia. subst a.
    specialize (BUF _ eq_refl).
    destruct (Nat.ltb_spec cl vl) as [LT|GE].
    + assert (FB: firstn cl buf = img_read m (v_addr v + offset) cl).
      { rewrite <- (img_read_firstn _ vl cl) by lia. rewrite <- BUF, firstn_firstn. now rewrite Nat.min_l by lia. }
      destruct (strncmp cl (v_id v) buf) eqn:SC.
      * apply HIT. apply strncmp_spec in SC; try lia; try apply ZF.
        unfold cl in SC at 1. rewrite firstn_all, FB in SC. unfold on_flash. now symmetry.
      * apply GO; auto; [|now intros a E; injection E as <-].
        intros O. unfold on_flash in O. fold cl in O.
        assert (strncmp cl (v_id v) buf = true); [|congruence].
        apply strncmp_spec; try lia; try apply ZF. rewrite FB. unfold cl at 1. rewrite firstn_all. now symmetry.
    + assert (PRE: on_flash m offset v -> firstn vl (v_id v) = firstn vl buf).
      { intros O. unfold on_flash in O. fold cl in O. rewrite BUF, <- O. apply img_read_firstn. auto. }
      destruct (strncmp vl (v_id v) buf) eqn:SC.
      * apply strncmp_spec in SC; try lia; try apply ZF.
        destruct (Nat.eqb_spec cl vl) as [E|NE].
        -- apply HIT. unfold on_flash. fold cl. rewrite <- E in SC, BUF. rewrite BUF in SC.
           unfold cl in SC at 1. rewrite firstn_all in SC. now symmetry.
        -- unfold read_into. replace (length buf <? vl + (cl - vl))%nat with false by lia.
           assert (U2: u32 (v_addr v + offset + N.of_nat vl) = v_addr v + offset + N.of_nat vl)
             by (unfold u32, W32; apply N.mod_small; lia).
           destruct (rfail (u32 (v_addr v + offset + N.of_nat vl))) eqn:RF; [eauto|]. rewrite U2.
           set (d := img_read m (v_addr v + offset + N.of_nat vl) (cl - vl)).
           assert (LD: length d = (cl - vl)%nat) by apply length_img_read.
           assert (LS: length (splice buf vl d) = length buf) by (apply length_splice_in; lia).
           assert (FS: firstn (cl - vl) (skipn vl (splice buf vl d)) = d) by (rewrite <- LD; apply skipn_splice_ext; lia).
           assert (WHOLE: img_read m (v_addr v + offset) cl = firstn vl buf ++ d).
           { rewrite BUF. unfold d. rewrite <- img_read_app. f_equal. lia. }
           assert (SK: firstn (cl - vl) (skipn vl (v_id v)) = skipn vl (v_id v)).
           { apply firstn_all2. rewrite skipn_length. fold cl. lia. }
           assert (LSK: length (skipn vl (v_id v)) = (cl - vl)%nat) by (rewrite skipn_length; fold cl; lia).
           assert (LSB: length (skipn vl (splice buf vl d)) = (length buf - vl)%nat) by (rewrite skipn_length; lia).
           destruct (strncmp (cl - vl) (skipn vl (v_id v)) (skipn vl (splice buf vl d))) eqn:SC2.
           ++ apply HIT. apply strncmp_spec in SC2; try lia; [|rewrite SK; apply ZS].
              rewrite SK, FS in SC2. unfold on_flash. fold cl. rewrite WHOLE, <- SC, <- SC2. apply firstn_skipn.
           ++ apply GO; auto.
              ** intros O. unfold on_flash in O. fold cl in O. rewrite WHOLE, <- SC in O.
                 assert (strncmp (cl - vl) (skipn vl (v_id v)) (skipn vl (splice buf vl d)) = true); [|congruence].
                 apply strncmp_spec; try lia; [rewrite SK; apply ZS|]. rewrite SK, FS.
                 rewrite <- (firstn_skipn vl (v_id v)) in O at 2. now apply app_inv_head in O.
              ** intros a E. injection E as <-. rewrite WHOLE.
                 replace cl with (vl + length d)%nat by lia. apply firstn_splice_ext. lia.
      * apply GO; auto; [|now intros a E; injection E as <-].
        intros O. specialize (PRE O).
        assert (strncmp vl (v_id v) buf = true); [|congruence]. apply strncmp_spec; try lia; try apply ZF; auto.
Qed.
End Version.
