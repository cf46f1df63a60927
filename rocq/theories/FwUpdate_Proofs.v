(** The firmware updater keeps a good image. *)
From Coq Require Import List NArith ZArith Lia Bool Arith ZifyBool ZifyNat ZifyN.
From Verif Require Import Base Flash_Base FlashUtil_Model FlashUtil_Proofs FlashUpdater_Model FlashUpdater_Proofs
  FwUpdate_Model FwUpdate_Spec FwUpdate_Flash_Proofs.
Import ListNotations.
Local Open Scope N_scope.

Section Keep.
Variable fmt : image -> N -> option fwinfo.
Variable hash : nat -> list N -> list N.
Variable c : fcfg.
Variable oracle : nat -> env.
Hypothesis Hfmt : image_format fmt (c_size c - c_off c).
Hypothesis Hlay : layout c.
Hypothesis Hpage : c_page_fails c = false.

Ltac inv H := injection H as <- <-.

Lemma lay_blk : 0 < c_blk c. Proof. now destruct Hlay as (A1 & A2 & A3 & A4 & A5 & A6 & A7 & A8 & A9). Qed.
Lemma lay_page : 0 < c_page c. Proof. now destruct Hlay as (A1 & A2 & A3 & A4 & A5 & A6 & A7 & A8 & A9). Qed.
Lemma lay_size : c_size c mod c_blk c = 0. Proof. now destruct Hlay as (A1 & A2 & A3 & A4 & A5 & A6 & A7 & A8 & A9). Qed.
Lemma lay_off : c_off c <= c_size c. Proof. now destruct Hlay as (A1 & A2 & A3 & A4 & A5 & A6 & A7 & A8 & A9). Qed.
Lemma lay_active : region c (c_active c). Proof. now destruct Hlay as (A1 & A2 & A3 & A4 & A5 & A6 & A7 & A8 & A9). Qed.
Lemma lay_staging : region c (c_staging c). Proof. now destruct Hlay as (A1 & A2 & A3 & A4 & A5 & A6 & A7 & A8 & A9). Qed.
Lemma lay_as : apart (c_size c) (c_active c) (c_staging c). Proof. now destruct Hlay as (A1 & A2 & A3 & A4 & A5 & A6 & A7 & A8 & A9). Qed.
Lemma lay_other : forall b, c_backup c = Some b \/ c_rec_backup c = Some b \/ c_recovery c = Some b ->
  region c b /\ apart (c_size c) b (c_active c) /\ apart (c_size c) b (c_staging c).
Proof. now destruct Hlay as (A1 & A2 & A3 & A4 & A5 & A6 & A7 & A8 & A9). Qed.
Lemma lay_rb : forall r b, c_recovery c = Some r -> c_backup c = Some b \/ c_rec_backup c = Some b -> apart (c_size c) r b.
Proof. now destruct Hlay as (A1 & A2 & A3 & A4 & A5 & A6 & A7 & A8 & A9). Qed.

Lemma apart_sym : forall n a b, apart n a b -> apart n b a.
Proof. unfold apart. tauto. Qed.

Lemma size_fits : forall m a i n, fmt m a = Some i -> i_size i = Some n -> N.of_nat n + c_off c <= c_size c.
Proof.
  clear hash oracle Hpage. intros. pose proof (proj2 (proj2 Hfmt) _ _ _ _ H H0). pose proof lay_off. lia. Qed.

(** Same bytes, same image. *)
Lemma good_copy : forall m m' rev a a', good fmt c m rev a ->
  (forall i n, fmt m (a + c_off c) = Some i -> i_size i = Some n -> holds c m' a' n = holds c m a n) ->
  good fmt c m' rev a'.
Proof.
  intros m m' rev a a' (i & I1 & I2 & I3) H. destruct Hfmt as (F1 & F2 & F3).
  destruct (F1 _ _ _ I1 I2) as (n & I4). exists i. split; [|auto].
  apply (F2 m (a + c_off c) i n); auto. now apply H with i.
Qed.

Lemma good_same : forall m m' rev a, good fmt c m rev a ->
  (forall x, a <= x < a + c_size c -> m' x = m x) -> good fmt c m' rev a.
Proof.
  clear hash oracle Hpage.
  intros m m' rev a G H. apply good_copy with m a; auto. intros i n I1 I2.
  unfold holds. apply img_read_ext. intros k Hk. apply H. pose proof (size_fits _ _ _ _ I1 I2). lia.
Qed.

(** A region that is not among those written keeps its contents. *)
Lemma only_in_same : forall l m m' a, only_in (c_size c) l m m' -> (forall b, In b l -> apart (c_size c) a b) ->
  forall x, a <= x < a + c_size c -> m' x = m x.
Proof.
  clear Hfmt Hlay Hpage hash fmt oracle. intros l m m' a O H x Hx. apply O. intros b Hb. specialize (H b Hb). unfold apart in H. lia. Qed.

Lemma only_in_sub : forall l l' m m', only_in (c_size c) l m m' -> (forall x, In x l -> In x l') -> only_in (c_size c) l' m m'.
Proof. intros l l' m m' O H x Hx. apply O. intros a Ha. apply Hx. auto. Qed.

Lemma only_in_trans : forall l m1 m2 m3, only_in (c_size c) l m1 m2 -> only_in (c_size c) l m2 m3 -> only_in (c_size c) l m1 m3.
Proof. intros l m1 m2 m3 A B x H. rewrite (B x H). now apply A. Qed.

(** The updater stays inside the staging region. *)
Definition upd_ok (u : updater) : Prop :=
  u_base u = c_staging c + c_off c /\ u_max u = c_size c - c_off c /\ u_off u <= u_max u.

(** The invariant: the flag for the recovery image is right, and while that image is bad the active one is good. *)
Definition inv (s : fst_) : Prop :=
  bytes_img (s_mem s) /\ upd_ok (s_upd s) /\
  forall r, c_recovery c = Some r ->
    (s_bad s = false -> good fmt c (s_mem s) (s_rev s) r) /\
    (s_bad s = true -> good fmt c (s_mem s) (s_rev s) (c_active c)).

Definition bootable (s : fst_) : Prop :=
  good fmt c (s_mem s) (s_rev s) (c_active c) \/
  exists r, c_recovery c = Some r /\ good fmt c (s_mem s) (s_rev s) r.

Lemma inv_calm : forall s s', calm s s' -> s_mem s' = s_mem s -> inv s -> inv s'.
Proof.
  intros s s' (C1 & C2 & C3 & C4 & C5 & C6 & C7) M I. unfold inv in *. rewrite M, C1, C2, C4. exact I.
Qed.

Lemma allowed_good : forall rev i, allowed rev i = true <-> i_valid i = true /\ forall k, i_manifest i = Some k -> rev <= k.
Proof.
  intros rev i. unfold allowed. rewrite andb_true_iff. split; intros [A B]; split; auto.
  - intros k K. rewrite K in B. now apply N.leb_le.
  - destruct (i_manifest i); auto. apply N.leb_le. auto.
Qed.

Lemma received_spec : forall a s s' r, check_received hash c oracle a s = (s', r) ->
  calm s s' /\ s_mem s' = s_mem s /\
  (r = Ok tt -> remaining_bytes (s_upd s) = 0%Z /\
    forall ty d, s_digest s = Some (ty, d) ->
      d = firstn (length d) (hash ty (img_read (s_mem s) (a + c_off c) (N.to_nat (s_len s))) ++ repeat 0 64)).
Proof.
  clear Hpage Hfmt Hlay fmt.
  intros a s s' r H. unfold check_received, bind, get, fail, ret, ask in H.
  destruct (Z.ltb_spec 0 (remaining_bytes (s_upd s))) as [L|L].
  { inv H. split; [apply calm_refl|split; [reflexivity|discriminate]]. }
  destruct (Z.ltb_spec (remaining_bytes (s_upd s)) 0) as [L'|L'].
  { inv H. split; [apply calm_refl|split; [reflexivity|discriminate]]. }
  destruct (s_digest s) as [[ty d]|] eqn:D.
  2:{ inv H. split; [apply calm_refl|split; [reflexivity|]]. intros _. split; [lia|discriminate]. }
  cbn [s_mem s_fw s_rev s_tick s_bad s_rrev s_upd s_digest s_len s_applied] in H.
  assert (CM: calm s s' /\ s_mem s' = s_mem s).
  { destruct ((s_len s =? 0) || negb (e_ok (oracle (s_tick s)))); [inv H; unfold calm; cbn; intuition|].
    destruct (hash_stream _ _ _ _ _); [|inv H; unfold calm; cbn; intuition].
    destruct (list_eq_dec _ _ _); inv H; unfold calm; cbn; intuition. }
  destruct CM as (CM1 & CM2). split; [auto|split; [auto|]]. intros ->. split; [lia|].
  intros ty' d' Q. injection Q as <- <-.
  destruct ((s_len s =? 0) || negb (e_ok (oracle (s_tick s)))); [discriminate|].
  destruct (hash_stream _ _ _ _ _) as [data|] eqn:HS; [|discriminate].
  apply hash_stream_spec in HS; auto. rewrite <- HS.
  destruct (list_eq_dec N.eq_dec (firstn (length d) (hash ty data ++ repeat 0 64)) d); [auto|discriminate].
Qed.

Lemma verify_spec : forall s s' r, verify oracle s = (s', r) ->
  quiet s s' /\ s_mem s' = s_mem s /\ (r = Ok tt -> exists i, s_fw s = Some i /\ allowed (s_rev s) i = true).
Proof.
  intros s s' r H. unfold verify, bind, ask, get, ret, fail in H.
  cbn [s_mem s_fw s_rev s_tick s_bad s_rrev s_upd s_digest s_len s_applied] in H.
  destruct (s_fw s) as [i|] eqn:F.
  - destruct (e_ok _ && allowed (s_rev s) i) eqn:E; inv H; (split; [unfold quiet; cbn; intuition|split; [reflexivity|]]); [|discriminate].
    intros _. exists i. split; auto. now apply andb_prop in E.
  - inv H; (split; [unfold quiet; cbn; intuition|split; [reflexivity|discriminate]]).
Qed.

(** What a revision query of an image yields. *)
Definition rev_result (i : fwinfo) (check : bool) (z : option Z) : Prop :=
  match i_header i with
  | Some (Some x) => z = Some x /\ (check = true -> c_rollback c = true -> (c_min_rev c <= x)%Z)
  | Some None => False
  | None => z = None /\ c_no_header c = true
  end.

Lemma load_and_verify_spec : forall a cb bi cr ws wr s s' r,
  load_and_verify fmt hash c oracle a cb bi cr ws wr s = (s', r) ->
  calm s s' /\ s_mem s' = s_mem s /\
  (forall n z, r = Ok (n, z) -> exists i, fmt (s_mem s) (a + c_off c) = Some i /\ s_fw s' = Some i /\
     allowed (s_rev s) i = true /\ (ws = true -> i_size i = Some n) /\ (wr = true -> rev_result i cr z) /\
     (cb = true -> remaining_bytes (s_upd s) = 0%Z /\
      forall ty d, s_digest s = Some (ty, d) ->
      d = firstn (length d) (hash ty (img_read (s_mem s) (a + c_off c) (N.to_nat (s_len s))) ++ repeat 0 64))).
Proof.
  clear Hpage Hfmt Hlay.
  intros a cb bi cr ws wr s s' r H. unfold load_and_verify in H.
  apply bind_cases in H. destruct H as [(s1 & [] & H1 & H)|(e & H1 & ->)].
  2:{ destruct cb; [|discriminate]. apply received_spec in H1. destruct H1 as (C & M & _). split; [auto|split; [auto|discriminate]]. }
  assert (R1: calm s s1 /\ s_mem s1 = s_mem s /\ (cb = true -> remaining_bytes (s_upd s) = 0%Z /\
      forall ty d, s_digest s = Some (ty, d) ->
      d = firstn (length d) (hash ty (img_read (s_mem s) (a + c_off c) (N.to_nat (s_len s))) ++ repeat 0 64))).
  { destruct cb.
    - apply received_spec in H1. destruct H1 as (C & M & R). split; [auto|split; [auto|]]. intros _. exact (R eq_refl).
    - unfold ret in H1. injection H1 as <-. split; [apply calm_refl|split; [auto|discriminate]]. }
  destruct R1 as (C1 & M1 & R1). clear H1.
  apply bind_cases in H. destruct H as [(s2 & [] & H1 & H)|(e & H1 & ->)].
  2:{ apply load_spec in H1. destruct H1 as (C & M & _). split; [exact (calm_trans _ _ _ C1 C)|split; [congruence|discriminate]]. }
  apply load_spec in H1. destruct H1 as (C2 & M2 & I2). destruct (I2 eq_refl) as (i & I3 & I4). clear I2.
  pose proof (calm_trans _ _ _ C1 C2) as C12. rewrite M1 in *.
  apply bind_cases in H. destruct H as [(s3 & [] & H1 & H)|(e & H1 & ->)].
  2:{ apply verify_spec in H1. destruct H1 as (C & M & _).
      split; [exact (calm_trans _ _ _ C12 (quiet_calm _ _ C))|split; [congruence|discriminate]]. }
  apply verify_spec in H1. destruct H1 as (C3 & M3 & I5). destruct (I5 eq_refl) as (i' & I6 & I7). clear I5.
  assert (i' = i) by congruence. subst i'.
  pose proof (calm_trans _ _ _ C12 (quiet_calm _ _ C3)) as C13.
  assert (F3: s_fw s3 = Some i) by (rewrite (proj1 C3); auto).
  rewrite (proj1 C12) in I7. clear C1 C2 C12 C3.
  apply bind_cases in H. destruct H as [(s4 & [] & H1 & H)|(e & H1 & ->)].
  2:{ destruct bi; [|discriminate]. apply call_spec in H1. destruct H1 as (C & M & _).
      split; [exact (calm_trans _ _ _ C13 (quiet_calm _ _ C))|split; [congruence|discriminate]]. }
  assert (R4: quiet s3 s4 /\ s_mem s4 = s_mem s3).
  { destruct bi; [apply call_spec in H1; tauto|]. unfold ret in H1. injection H1 as <-. split; [apply quiet_refl|auto]. }
  destruct R4 as (C4 & M4). clear H1.
  pose proof (calm_trans _ _ _ C13 (quiet_calm _ _ C4)) as C14.
  assert (F4: s_fw s4 = Some i) by (rewrite (proj1 C4); auto). clear C13 C4.
  apply bind_cases in H. destruct H as [(s5 & n & H1 & H)|(e & H1 & ->)].
  2:{ destruct ws; [|discriminate]. apply size_spec in H1. destruct H1 as (C & M & _).
      split; [exact (calm_trans _ _ _ C14 (quiet_calm _ _ C))|split; [congruence|discriminate]]. }
  assert (R5: quiet s4 s5 /\ s_mem s5 = s_mem s4 /\ (ws = true -> i_size i = Some n)).
  { destruct ws.
    - apply size_spec in H1. destruct H1 as (C & M & Q). split; [auto|split; [auto|]]. intros _.
      destruct (Q n eq_refl) as (i' & Q1 & Q2). congruence.
    - unfold ret in H1. injection H1 as <- <-. split; [apply quiet_refl|split; [auto|discriminate]]. }
  destruct R5 as (C5 & M5 & R5). clear H1.
  pose proof (calm_trans _ _ _ C14 (quiet_calm _ _ C5)) as C15.
  assert (F5: s_fw s5 = Some i) by (rewrite (proj1 C5); auto). clear C14 C5.
  assert (M: s_mem s5 = s_mem s) by congruence. clear M1 M2 M3 M4 M5.
  assert (G: s' = s5 /\ forall n' z, r = Ok (n', z) -> n' = n /\ (wr = true -> rev_result i cr z)).
  { unfold header, bind, get, ret, fail, rev_result in *. destruct wr.
    - cbv beta iota zeta in H.
      rewrite F5 in H. destruct (i_header i) as [[x|]|].
      + destruct (cr && c_rollback c && (x <? c_min_rev c)%Z) eqn:Q; inv H; (split; [reflexivity|]); [discriminate|].
        intros n' z E. injection E as <- <-. split; [reflexivity|]. intros _. split; [reflexivity|].
        intros Q1 Q2. rewrite Q1, Q2 in Q. cbn in Q. lia.
      + inv H. split; [reflexivity|discriminate].
      + destruct (c_no_header c); inv H; (split; [reflexivity|]); [|discriminate].
        intros n' z E. injection E as <- <-. auto.
    - inv H. split; [reflexivity|]. intros n' z E. injection E as <- <-. split; [reflexivity|discriminate]. }
  destruct G as (-> & G). split; [auto|split; [auto|]]. intros n' z E. destruct (G n' z E) as (-> & G2).
  exists i. auto 10.
Qed.

(** Images written from a verified image are good. *)
Lemma good_of : forall m a i rev, fmt m (a + c_off c) = Some i -> allowed rev i = true -> good fmt c m rev a.
Proof. intros m a i rev H1 H2. apply allowed_good in H2. exists i. tauto. Qed.

Lemma good_written : forall m m' a a' i n rev, fmt m (a + c_off c) = Some i -> i_size i = Some n -> allowed rev i = true ->
  holds c m' a' n = holds c m a n -> good fmt c m' rev a'.
Proof.
  intros m m' a a' i n rev H1 H2 H3 H4. apply (good_of _ _ i); auto.
  exact (proj1 (proj2 Hfmt) m (a + c_off c) i n m' (a' + c_off c) H1 H2 H4).
Qed.

Lemma fmt_written : forall m m' a a' i n, fmt m (a + c_off c) = Some i -> i_size i = Some n ->
  holds c m' a' n = holds c m a n -> fmt m' (a' + c_off c) = Some i.
Proof.
  intros m m' a a' i n H1 H2 H4.
  exact (proj1 (proj2 Hfmt) m (a + c_off c) i n m' (a' + c_off c) H1 H2 H4).
Qed.

(** Without a backup a failure always leaves the image suspect. *)
Lemma no_backup : forall dest src n s s' e gd, write_image fmt c oracle dest None src n s = (s', (Err e, gd)) -> gd = false.
Proof.
  intros dest src n s s' e gd H. unfold write_image, ret in H. unfold query_page in H. rewrite Hpage in H. unfold ret in H.
  unfold replace_image in H. destruct (bind (erase _ _ _ _) _ _) as [s1 [[]|x]]; [|congruence].
  destruct (bind _ _ s1) as [s2 [[]|x]]; congruence.
Qed.

(** The recovery region written from [src]. *)
Lemma write_recovery : forall rr backup src n i s s' r gd,
  c_recovery c = Some rr -> src = c_active c \/ src = c_staging c ->
  backup = None \/ (exists b, backup = Some b /\ (c_backup c = Some b \/ c_rec_backup c = Some b)) ->
  bytes_img (s_mem s) -> fmt (s_mem s) (src + c_off c) = Some i -> i_size i = Some n ->
  write_image fmt c oracle rr backup src n s = (s', (r, gd)) ->
  calm s s' /\ bytes_img (s_mem s') /\ only_in (c_size c) (rr :: opt backup) (s_mem s) (s_mem s') /\
  (backup = None -> s_fw s' = s_fw s) /\
  (r = Ok tt -> gd = true /\ holds c (s_mem s') rr n = holds c (s_mem s) src n) /\
  (forall rev, gd = true -> (exists e, r = Err e) -> good fmt c (s_mem s) rev rr -> good fmt c (s_mem s') rev rr) /\
  (backup = None -> (exists e, r = Err e) -> gd = false) /\
  (forall x, c_active c <= x < c_active c + c_size c -> s_mem s' x = s_mem s x) /\
  (forall x, c_staging c <= x < c_staging c + c_size c -> s_mem s' x = s_mem s x).
Proof.
  clear hash.
  intros rr backup src n i s s' r gd Hr Hs Hb B I1 I2 H.
  destruct (lay_other rr (or_intror (or_intror Hr))) as (L1 & L2 & L3).
  pose proof (size_fits _ _ _ _ I1 I2) as Ln.
  assert (Hbk: forall b, backup = Some b -> region c b /\ apart (c_size c) b rr /\ apart (c_size c) b src /\
     apart (c_size c) b (c_active c) /\ apart (c_size c) b (c_staging c)).
  { intros b Q. destruct Hb as [->|(b' & Q' & Hb)]; [discriminate|]. assert (b' = b) by congruence. subst b'.
    destruct (lay_other b ltac:(tauto)) as (K1 & K2 & K3). split; [auto|].
    split; [apply apart_sym; now apply (lay_rb rr b)|]. split; [|auto]. destruct Hs as [-> | ->]; auto. }
  assert (NB: backup = None -> (exists e, r = Err e) -> gd = false).
  { intros -> (e & ->). now apply no_backup in H. }
  apply (write_image_spec fmt c oracle lay_blk lay_page lay_size) in H; auto using lay_off.
  2:{ destruct Hs as [-> | ->]; auto. }
  2:{ intros b Q. destruct (Hbk b Q) as (K1 & K2 & K3 & _). auto. }
  destruct H as (C & B' & O & W1 & W2 & W3 & _). split; [auto|]. split; [auto|]. split; [auto|]. split; [auto|]. split; [auto|].
  split; [|split; [exact NB|split]].
  - intros rev G E Gd. exact (good_copy _ _ _ _ _ Gd (W3 E G)).
  - apply (only_in_same (rr :: opt backup)); auto. intros b [<-|Q]; [now apply apart_sym|].
    destruct backup as [b'|]; [|destruct Q]. destruct Q as [<-|[]]. apply apart_sym. now apply (Hbk b').
  - apply (only_in_same (rr :: opt backup)); auto. intros b [<-|Q]; [now apply apart_sym|].
    destruct backup as [b'|]; [|destruct Q]. destruct Q as [<-|[]]. apply apart_sym. now apply (Hbk b').
Qed.

(** The active region written from [src], which is the staging or the recovery region. *)
Lemma write_active : forall src backup n i s s' r gd,
  src = c_staging c \/ (c_recovery c = Some src /\ backup = None) -> backup = None \/ backup = c_backup c ->
  bytes_img (s_mem s) -> fmt (s_mem s) (src + c_off c) = Some i -> i_size i = Some n ->
  write_image fmt c oracle (c_active c) backup src n s = (s', (r, gd)) ->
  calm s s' /\ bytes_img (s_mem s') /\ only_in (c_size c) (c_active c :: opt backup) (s_mem s) (s_mem s') /\
  (r = Ok tt -> holds c (s_mem s') (c_active c) n = holds c (s_mem s) src n) /\
  (forall x, c_staging c <= x < c_staging c + c_size c -> s_mem s' x = s_mem s x) /\
  (forall rr, c_recovery c = Some rr -> forall x, rr <= x < rr + c_size c -> s_mem s' x = s_mem s x) /\
  (forall b, backup = Some b -> good fmt c (s_mem s) (s_rev s) (c_active c) ->
     good fmt c (s_mem s') (s_rev s) (c_active c) \/ good fmt c (s_mem s') (s_rev s) b) /\
  (gd = true -> forall rev, good fmt c (s_mem s) rev (c_active c) -> (exists e, r = Err e) -> good fmt c (s_mem s') rev (c_active c)).
Proof.
  clear hash Hpage.
  intros src backup n i s s' r gd Hs Hb B I1 I2 H.
  pose proof (size_fits _ _ _ _ I1 I2) as Ln.
  assert (As: apart (c_size c) (c_active c) src).
  { destruct Hs as [-> |(Hr & _)]; [apply lay_as|]. apply apart_sym. apply lay_other. auto. }
  assert (Hbk: forall b, backup = Some b -> c_backup c = Some b) by (intros b Q; destruct Hb; congruence).
  apply (write_image_spec fmt c oracle lay_blk lay_page lay_size) in H; auto using lay_off, lay_active.
  2:{ intros b Q. destruct (lay_other b (or_introl (Hbk b Q))) as (K1 & K2 & K3). split; [auto|split; [auto|]].
      destruct Hs as [-> |(Hr & X)]; [auto|congruence]. }
  destruct H as (C & B' & O & W1 & W2 & W3 & W4 & W5). split; [auto|]. split; [auto|]. split; [auto|].
  split; [intros R; now apply W2|].
  assert (F: forall a, apart (c_size c) a (c_active c) -> (forall b, backup = Some b -> apart (c_size c) a b) ->
    forall x, a <= x < a + c_size c -> s_mem s' x = s_mem s x).
  { intros a A1 A2. apply (only_in_same (c_active c :: opt backup)); auto. intros b [<-|Q]; [auto|].
    destruct backup as [b'|]; [|destruct Q]. destruct Q as [<-|[]]. now apply A2. }
  split; [|split; [|split]].
  - apply F; [apply apart_sym, lay_as|]. intros b Q. apply apart_sym. now apply (lay_other b (or_introl (Hbk b Q))).
  - intros rr Hr. apply F; [apply lay_other; auto|]. intros b Q. apply (lay_rb rr b Hr). left. auto.
  - intros b Q G. destruct (W4 b Q) as [K|K].
    + left. now apply good_same with (s_mem s).
    + right. now apply good_copy with (s_mem s) (c_active c).
  - intros G rev Gd E. exact (good_copy _ _ _ _ _ Gd (W3 E G)).
Qed.

(** The steps of applying an update. *)
Lemma apply_cases : forall n i s s' r,
  bytes_img (s_mem s) -> fmt (s_mem s) (c_staging c + c_off c) = Some i -> i_size i = Some n -> allowed (s_rev s) i = true ->
  apply_update fmt c oracle n s = (s', r) ->
  (* nothing was changed *)
  (calm s s' /\ s_mem s' = s_mem s /\ exists e, r = Err e) \/
  (* writing the recovery image failed *)
  (exists rr, c_recovery c = Some rr /\ s_bad s = true /\ calm s s' /\ bytes_img (s_mem s') /\
     only_in (c_size c) [rr] (s_mem s) (s_mem s') /\ exists e, r = Err e) \/
  (* the active image was written *)
  exists s1 s2 up q gd,
    bytes_img (s_mem s1) /\ s_rev s1 = s_rev s /\ s_rrev s1 = s_rrev s /\ s_upd s1 = s_upd s /\ s_applied s1 = s_applied s /\
    holds c (s_mem s1) (c_staging c) n = holds c (s_mem s) (c_staging c) n /\
    ((up = false /\ s_mem s1 = s_mem s /\ s_bad s1 = s_bad s /\ (c_recovery c = None \/ s_bad s = false)) \/
     (up = true /\ s_bad s1 = false /\ s_bad s = true /\ exists rr, c_recovery c = Some rr /\
        only_in (c_size c) [rr] (s_mem s) (s_mem s1) /\ holds c (s_mem s1) rr n = holds c (s_mem s) (c_staging c) n)) /\
    write_image fmt c oracle (c_active c) (c_backup c) (c_staging c) n s1 = (s2, (q, gd)) /\
    s_mem s' = s_mem s2 /\ s_rev s' = s_rev s2 /\ s_rrev s' = s_rrev s2 /\ s_upd s' = s_upd s2 /\ s_bad s' = s_bad s2 /\
    s_applied s' = s_applied s2 /\
    match q with Ok _ => r = Ok up | Err e => r = Err e end.
Proof.
  clear hash.
  intros n i s s' r B I1 I2 I3 H. unfold apply_update in H.
  apply bind_cases in H. destruct H as [(s1 & [] & H1 & H)|(e & H1 & ->)].
  2:{ apply call_spec in H1. destruct H1 as (C & M & _). left. split; [now apply quiet_calm|split; [auto|eauto]]. }
  apply call_spec in H1. destruct H1 as (C1 & M1 & _). apply quiet_calm in C1.
  apply bind_cases in H. destruct H as [(s2 & [] & H1 & H)|(e & H1 & ->)].
  2:{ apply call_spec in H1. destruct H1 as (C & M & _). apply quiet_calm in C.
      left. split; [exact (calm_trans _ _ _ C1 C)|split; [congruence|eauto]]. }
  apply call_spec in H1. destruct H1 as (C2 & M2 & _). apply quiet_calm in C2.
  pose proof (calm_trans _ _ _ C1 C2) as C. assert (M: s_mem s2 = s_mem s) by congruence. clear C1 C2 M1 M2.
  unfold bind at 1, get in H.
  set (P := match c_recovery c with
         | Some r =>
           if s_bad s2 then
             (fun s => match write_image fmt c oracle r None (c_staging c) n s with
                       | (s', (Ok _, good)) => (set_bad (negb good) ;;; ret true) s'
                       | (s', (Err e, _)) => (s', Err e)
                       end)
           else ret false
         | None => ret false
         end) in *.
  assert (PP: forall s3 q, P s2 = (s3, q) ->
    (exists e, q = Err e /\ exists rr, c_recovery c = Some rr /\ s_bad s = true /\ calm s s3 /\ bytes_img (s_mem s3) /\
       only_in (c_size c) [rr] (s_mem s) (s_mem s3)) \/
    (exists up, q = Ok up /\ bytes_img (s_mem s3) /\ s_rev s3 = s_rev s /\ s_rrev s3 = s_rrev s /\ s_upd s3 = s_upd s /\
      s_applied s3 = s_applied s /\
      holds c (s_mem s3) (c_staging c) n = holds c (s_mem s) (c_staging c) n /\
      ((up = false /\ s_mem s3 = s_mem s /\ s_bad s3 = s_bad s /\ (c_recovery c = None \/ s_bad s = false)) \/
       (up = true /\ s_bad s3 = false /\ s_bad s = true /\ exists rr, c_recovery c = Some rr /\
        only_in (c_size c) [rr] (s_mem s) (s_mem s3) /\ holds c (s_mem s3) rr n = holds c (s_mem s) (c_staging c) n)))).
  { intros s3 q E. unfold P in E. pose proof C as (C1 & C2 & C3 & C4 & C5 & C6 & C7).
    assert (Z: (c_recovery c = None \/ s_bad s = false) -> (s2, Ok false) = (s3, q) ->
      exists up, q = Ok up /\ bytes_img (s_mem s3) /\ s_rev s3 = s_rev s /\ s_rrev s3 = s_rrev s /\ s_upd s3 = s_upd s /\
      s_applied s3 = s_applied s /\
      holds c (s_mem s3) (c_staging c) n = holds c (s_mem s) (c_staging c) n /\
      ((up = false /\ s_mem s3 = s_mem s /\ s_bad s3 = s_bad s /\ (c_recovery c = None \/ s_bad s = false)) \/
       (up = true /\ s_bad s3 = false /\ s_bad s = true /\ exists rr, c_recovery c = Some rr /\
        only_in (c_size c) [rr] (s_mem s) (s_mem s3) /\ holds c (s_mem s3) rr n = holds c (s_mem s) (c_staging c) n))).
    { intros X Y. injection Y as <- <-. exists false. rewrite M. repeat (split; [auto; fail|]). left. auto. }
    destruct (c_recovery c) as [rr|] eqn:Hr.
    2:{ right. apply Z; auto. }
    destruct (s_bad s2) eqn:Eb.
    2:{ right. apply Z; auto; right; congruence. }
    destruct (write_image fmt c oracle rr None (c_staging c) n s2) as [s4 [qq gd]] eqn:W.
    apply (write_recovery rr None (c_staging c) n i) in W; auto; try (rewrite M; auto; fail).
    destruct W as (D & BB & O & _ & W2 & _ & _ & _ & W5). rewrite M in *.
    assert (D': calm s s4) by exact (calm_trans _ _ _ C D).
    destruct qq as [[]|e].
    - destruct (W2 eq_refl) as (-> & W3). unfold bind, set_bad, ret in E. cbn [negb] in E. injection E as <- <-.
      right. exists true. destruct D' as (D1 & D2 & D3 & D4 & D5 & D6 & D7).
      cbn [s_mem s_rev s_rrev s_upd s_applied s_bad]. split; [auto|]. split; [auto|]. split; [auto|]. split; [auto|]. split; [auto|].
      split; [auto|]. split.
      { unfold holds. apply img_read_ext. intros k Hk. apply W5. pose proof (size_fits _ _ _ _ I1 I2). lia. }
      right. split; [auto|]. split; [auto|]. split; [congruence|]. exists rr. auto.
    - injection E as <- <-. left. exists e. split; [auto|]. exists rr. split; [auto|]. split; [congruence|]. auto. }
  unfold P in PP. clear P. apply bind_cases in H. destruct H as [(s3 & up & H1 & H)|(e & H1 & ->)].
  2:{ destruct (PP _ _ H1) as [(e' & _ & rr & R1 & R2 & R3 & R4 & R5)|(up & X & _)]; [|discriminate].
      right. left. exists rr. eauto 10. }
  destruct (PP _ _ H1) as [(e & X & _)|(up' & X & B3 & V1 & V2 & V3 & V4 & V5 & V6)]; [discriminate|].
  injection X as <-. clear PP H1.
  right. right. unfold bind in H.
  destruct (write_image fmt c oracle (c_active c) (c_backup c) (c_staging c) n s3) as [s4 [q gd]] eqn:W.
  exists s3, s4, up, q, gd. repeat (split; [first [exact V6|assumption|reflexivity]|]).
  destruct q as [[]|e].
  - unfold clear_digest, bind, set_digest, set_len, ret in H. injection H as <- <-. cbn. auto 10.
  - injection H as <- <-. auto 10.
Qed.

(** Applying an update preserves the invariant; afterwards the staged image is unchanged. *)
Lemma apply_inv : forall n i s s' r, inv s ->
  fmt (s_mem s) (c_staging c + c_off c) = Some i -> i_size i = Some n -> allowed (s_rev s) i = true ->
  apply_update fmt c oracle n s = (s', r) ->
  inv s' /\ s_rev s' = s_rev s /\ s_rrev s' = s_rrev s /\
  holds c (s_mem s') (c_staging c) n = holds c (s_mem s) (c_staging c) n /\
  only_in (c_size c) (c_active c :: opt (c_recovery c) ++ opt (c_backup c)) (s_mem s) (s_mem s') /\
  (forall up, r = Ok up -> holds c (s_mem s') (c_active c) n = holds c (s_mem s) (c_staging c) n /\
     (up = true -> s_bad s = true /\ s_bad s' = false /\ exists rr, c_recovery c = Some rr /\ holds c (s_mem s') rr n = holds c (s_mem s) (c_staging c) n) /\
     (up = false -> (c_recovery c = None \/ s_bad s = false) /\ s_bad s' = s_bad s /\ forall rr, c_recovery c = Some rr ->
        forall x, rr <= x < rr + c_size c -> s_mem s' x = s_mem s x)).
Proof.
  clear hash.
  intros n i s s' r (B & U & I) I1 I2 I3 H. pose proof (size_fits _ _ _ _ I1 I2) as Ln.
  apply (apply_cases n i) in H; auto. destruct H as [(C & M & e & ->)|[(rr & Hr & Hb & C & B' & O & e & ->)|H]].
  - split; [apply inv_calm with s; [auto|auto|split; [auto|split; auto]]|]. destruct C as (C1 & _ & C3 & _).
    split; [auto|]. split; [auto|]. split; [now rewrite M|]. split; [intros x _; now rewrite M|discriminate].
  - destruct C as (C1 & C2 & C3 & C4 & _). destruct (lay_other rr (or_intror (or_intror Hr))) as (L1 & L2 & L3).
    split.
    { split; [auto|]. split; [now rewrite C4|]. intros r' Hr'. assert (r' = rr) by congruence. subst r'.
      rewrite C2, C1. split; [congruence|]. intros _. apply good_same with (s_mem s); [now apply I with rr|].
      apply (only_in_same [rr]); auto. intros b [<-|[]]. now apply apart_sym. }
    split; [auto|]. split; [auto|]. split.
    { unfold holds. apply img_read_ext. intros k Hk. apply (only_in_same [rr] _ _ (c_staging c) O); [|lia].
      intros b [<-|[]]. now apply apart_sym. }
    split; [|discriminate]. apply only_in_sub with [rr]; auto. intros x [<-|[]]. right. apply in_or_app. left. rewrite Hr. now left.
  - destruct H as (s1 & s2 & up & q & gd & B1 & V1 & V2 & V3 & _ & V5 & V6 & W & M & T1 & T2 & T3 & T4 & _ & Q).
    assert (I1': fmt (s_mem s1) (c_staging c + c_off c) = Some i) by (now apply fmt_written with (s_mem s) (c_staging c) n).
    apply (write_active (c_staging c) (c_backup c) n i) in W; auto.
    destruct W as (D & B2 & O2 & W1 & W2 & W3 & _). destruct D as (D1 & D2 & D3 & D4 & _).
    assert (RR: forall rr, c_recovery c = Some rr -> s_bad s1 = false -> good fmt c (s_mem s1) (s_rev s) rr).
    { intros rr Hr E. destruct V6 as [(-> & Mm & Eb & Y)|(-> & Eb & Eb' & r' & Hr' & O & Hh)].
      - rewrite Mm. apply I; auto. congruence.
      - assert (r' = rr) by congruence. subst r'. now apply good_written with (s_mem s) (c_staging c) i n. }
    assert (Z: s_bad s1 = true -> c_recovery c = None).
    { intros E. destruct V6 as [(_ & _ & Eb & [Y|Y])|(_ & Eb & _)]; congruence. }
    split.
    { split; [now rewrite M|]. split; [rewrite T3, D4, V3; auto|]. intros rr Hr. rewrite M, T1, T4, D1, D2, V1. split.
      - intros E. apply good_same with (s_mem s1); [now apply RR|]. now apply W3.
      - intros E. rewrite (Z E) in Hr. discriminate. }
    split; [congruence|]. split; [congruence|]. split.
    { rewrite M, <- V5. unfold holds. apply img_read_ext. intros k Hk. apply W2. lia. }
    assert (O1: only_in (c_size c) (c_active c :: opt (c_recovery c) ++ opt (c_backup c)) (s_mem s) (s_mem s1)).
    { destruct V6 as [(_ & Mm & _)|(_ & _ & _ & r' & Hr' & O & _)].
      - rewrite Mm. intros x _. reflexivity.
      - apply only_in_sub with [r']; auto. intros x [<-|[]]. right. apply in_or_app. left. rewrite Hr'. now left. }
    split.
    { rewrite M. apply only_in_trans with (s_mem s1); auto. apply only_in_sub with (c_active c :: opt (c_backup c)); auto.
      intros x [<-|X]; [now left|]. right. apply in_or_app. now right. }
    intros up' R. destruct q as [[]|e]; [|congruence]. assert (up' = up) by congruence. subst up'.
    split; [rewrite M, (W1 eq_refl); auto|]. split.
    + intros ->. destruct V6 as [(X & _)|(_ & Eb & Eb' & r' & Hr' & O & Hh)]; [discriminate|].
      split; [auto|]. split; [congruence|]. exists r'. split; auto. rewrite <- Hh, M. unfold holds. apply img_read_ext. intros k Hk. apply (W3 r' Hr'). lia.
    + intros ->. destruct V6 as [(_ & Mm & Eb & Y)|(X & _)]; [|discriminate].
      split; [auto|]. split; [congruence|]. intros rr Hr x Hx. rewrite M, (W3 rr Hr x Hx). now rewrite Mm.
Qed.

(** Revocation. *)
Lemma revoke_spec : forall f s s' r, revoke oracle f s = (s', r) ->
  s_mem s' = s_mem s /\ s_bad s' = s_bad s /\ s_rrev s' = s_rrev s /\ s_upd s' = s_upd s /\ s_applied s' = s_applied s /\
  (s_rev s' = s_rev s \/ exists i k, f = Some i /\ i_manifest i = Some k /\ s_rev s' = N.max (s_rev s) k) /\
  (r = Ok tt -> forall i k, f = Some i -> i_manifest i = Some k -> s_rev s' = N.max (s_rev s) k).
Proof.
  intros f s s' r H. unfold revoke, bind, ask, get, set_rev, ret, fail in H.
  cbn [s_mem s_fw s_rev s_tick s_bad s_rrev s_upd s_digest s_len s_applied] in H.
  destruct (e_ok _); [|destruct (e_done _)]; injection H as <- <-; cbn;
   (split; [auto|]; split; [auto|]; split; [auto|]; split; [auto|]; split; [auto|]); split; try discriminate.
  - destruct f as [i|]; [|auto]. destruct (i_manifest i) as [k|] eqn:K; [right; eauto|auto].
  - intros _ i k -> ->. reflexivity.
  - destruct f as [i|]; [|auto]. destruct (i_manifest i) as [k|] eqn:K; [right; eauto|auto].
  - auto.
Qed.

(** [f] is the image loaded; the active region and [src] hold it. *)
Lemma process_spec : forall src n i z up s s' r, stable_manifest c -> inv s ->
  src = c_active c \/ src = c_staging c ->
  s_fw s = Some i -> i_size i = Some n ->
  fmt (s_mem s) (src + c_off c) = Some i -> fmt (s_mem s) (c_active c + c_off c) = Some i -> allowed (s_rev s) i = true ->
  (up = true -> s_bad s = false /\ exists rr, c_recovery c = Some rr /\ fmt (s_mem s) (rr + c_off c) = Some i) ->
  process_revocation fmt c oracle src n z up s = (s', r) ->
  inv s' /\ s_applied s' = s_applied s /\
  only_in (c_size c) (opt (c_recovery c) ++ opt (c_backup c) ++ opt (c_rec_backup c)) (s_mem s) (s_mem s') /\
  good fmt c (s_mem s') (s_rev s') (c_active c) /\
  (* revocation: both images carry the manifest that is then the oldest allowed one *)
  (s_rev s' = s_rev s \/
   (exists k, i_manifest i = Some k /\ s_rev s < k /\ s_rev s' = k) /\
   forall rr, c_recovery c = Some rr -> s_bad s' = false /\ fmt (s_mem s') (rr + c_off c) = Some i /\
     (up = false -> holds c (s_mem s') rr n = holds c (s_mem s) src n) /\ (up = true -> forall x, s_mem s' x = s_mem s x)) /\
  (r = Ok tt ->
    (forall k, i_manifest i = Some k -> k <= s_rev s') /\ i_manifest i <> None /\ (c_recovery c <> None -> s_bad s' = false) /\
    s_rrev s' = z /\
    forall rr, c_recovery c = Some rr ->
      (up = false -> holds c (s_mem s') rr n = holds c (s_mem s) src n \/
        (s_bad s = false /\ s_rrev s = z /\ s_rev s' = s_rev s /\ forall x, s_mem s' x = s_mem s x)) /\
      (up = true -> forall x, s_mem s' x = s_mem s x)).
Proof.
  clear hash.
  intros src n i z up s s' r ST I Hsrc F I2 I1 IA I3 Hup H. pose proof I as (B & U & IR).
  pose proof (size_fits _ _ _ _ I1 I2) as Ln. unfold process_revocation in H.
  unfold bind at 1, get in H. rewrite F in H.
  assert (GA: good fmt c (s_mem s) (s_rev s) (c_active c)) by (now apply good_of with i).
  destruct (i_manifest i) as [k|] eqn:K.
  2:{ unfold fail in H. injection H as <- <-. split; [auto|]. split; [auto|]. split; [intros x _; reflexivity|].
      split; [auto|]. split; [auto|]. discriminate. }
  apply bind_cases in H. destruct H as [(s1 & [] & H1 & H)|(e & H1 & ->)].
  2:{ apply call_spec in H1. destruct H1 as (C & M & _). apply quiet_calm in C. split; [now apply inv_calm with s|].
      destruct C as (C1 & C2 & C3 & C4 & C5 & C6 & C7). rewrite M, C1.
      split; [auto|]. split; [intros x _; reflexivity|]. split; [auto|]. split; [auto|]. discriminate. }
  apply call_spec in H1. destruct H1 as (C & M & _). 
  assert (F1: s_fw s1 = Some i) by (rewrite (proj1 C); auto). apply quiet_calm in C.
  assert (J1: inv s1) by (now apply inv_calm with s).
  destruct C as (C1 & C2 & C3 & C4 & C5 & C6 & C7).
  unfold bind at 1, get in H. unfold bind at 1 in H. unfold bind at 1 in H. rewrite C1, C2, C3 in H.
  assert (KR: s_rev s <= k) by (apply allowed_good in I3; now apply I3).
  destruct ((s_rev s <? k) || s_bad s || negb (s_rrev s =? z)%Z) eqn:Need.
  2:{ unfold ret in H. injection H as <- <-. split; [auto|]. rewrite M, C1. split; [auto|]. split; [intros x _; reflexivity|].
      split; [auto|]. split; [auto|]. intros _.
      assert (s_rev s = k /\ s_bad s = false /\ s_rrev s = z) as (E1 & E2 & E3).
      { apply orb_false_elim in Need. destruct Need as (N1 & N2). apply orb_false_elim in N1. lia. }
      split; [intros k' Q; injection Q as <-; lia|]. split; [discriminate|]. split; [congruence|]. split; [congruence|].
      intros rr Hr. split; [|auto]. intros _. right. split; [auto|]. split; [auto|]. split; [auto|]. auto. }
  apply bind_cases in H.
  set (bk := recovery_backup c (s_bad s)) in *.
  assert (Hbk: bk = None \/ exists b, bk = Some b /\ (c_backup c = Some b \/ c_rec_backup c = Some b)).
  { unfold bk, recovery_backup. destruct (s_bad s); [auto|]. destruct (c_rec_backup c) as [b|] eqn:Eb; [right; eauto|].
    destruct (c_backup c) as [b|]; [right; eauto|auto]. }
  assert (Obk: forall x, In x (opt bk) -> In x (opt (c_backup c) ++ opt (c_rec_backup c))).
  { intros x. unfold bk, recovery_backup. destruct (s_bad s); [cbn; tauto|]. rewrite in_app_iff.
    destruct (c_rec_backup c); auto. }
  assert (P: forall s2 q, (match c_recovery c with
       | Some r =>
         if up then ret tt
         else fun s => match write_image fmt c oracle r bk src n s with
                       | (s', (Ok _, good)) => set_bad (negb good) s'
                       | (s', (Err e, good)) => (set_bad (negb good) ;;; fail e) s'
                       end
       | None => ret tt
       end) s1 = (s2, q) ->
     inv s2 /\ s_applied s2 = s_applied s /\ s_rev s2 = s_rev s /\
     only_in (c_size c) (opt (c_recovery c) ++ opt (c_backup c) ++ opt (c_rec_backup c)) (s_mem s) (s_mem s2) /\
     (forall x, c_active c <= x < c_active c + c_size c -> s_mem s2 x = s_mem s x) /\
     (q = Ok tt -> (c_live c = true -> s_fw s2 = Some i) /\ forall rr, c_recovery c = Some rr -> s_bad s2 = false /\ fmt (s_mem s2) (rr + c_off c) = Some i /\
        (up = false -> holds c (s_mem s2) rr n = holds c (s_mem s) src n) /\
        (up = true -> forall x, s_mem s2 x = s_mem s x))).
  { intros s2 q E. destruct (c_recovery c) as [rr|] eqn:Hr.
    2:{ unfold ret in E. injection E as <- <-. rewrite M, C1. split; [auto|]. split; [auto|]. split; [auto|].
        split; [intros x _; reflexivity|]. split; [auto|]. intros _. split; [auto|]. discriminate. }
    destruct up.
    { unfold ret in E. injection E as <- <-. rewrite M, C1. split; [auto|]. split; [auto|]. split; [auto|].
      split; [intros x _; reflexivity|]. split; [auto|]. intros _. split; [auto|].
      destruct (Hup eq_refl) as (Y1 & r' & Y2 & Y3). intros rr' Q. injection Q as <-.
      assert (r' = rr) by congruence. subst r'. split; [congruence|]. split; [auto|]. split; [discriminate|auto]. }
    destruct (write_image fmt c oracle rr bk src n s1) as [s3 [q3 gd]] eqn:W.
    apply (write_recovery rr bk src n i) in W; auto; try (rewrite M; auto; fail).
    destruct W as (D & B3 & O & W1 & W2 & W3 & WN & W4 & W5). rewrite M in *.
    destruct D as (D1 & D2 & D3 & D4 & D5 & D6 & D7).
    assert (X: s2 = fst (set_bad (negb gd) s3) /\ (q = Ok tt <-> q3 = Ok tt)).
    { destruct q3 as [[]|e]; unfold bind, set_bad, fail in *; injection E as <- <-; (split; [reflexivity|]); split; intros; congruence. }
    destruct X as (-> & X). cbn [set_bad fst]. split.
    { split; [auto|]. split; [cbn; rewrite D4, C4; auto|]. intros r' Hr'. assert (r' = rr) by congruence. subst r'.
      cbn [s_bad s_mem s_rev]. rewrite D1, C1. split.
      - intros G. assert (gd = true) by (destruct gd; [auto|discriminate]). subst gd.
        destruct q3 as [[]|e].
        + destruct (W2 eq_refl) as (_ & Hh). now apply good_written with (s_mem s) src i n.
        + apply W3; auto; [eauto|]. destruct (s_bad s) eqn:Eb; [|now apply IR].
          (* the image was bad and is not backed up: a failure is reported *)
          assert (X': true = false) by (apply WN; [reflexivity|eauto]). discriminate.
      - intros _. now apply good_same with (s_mem s). }
    split; [cbn; congruence|]. split; [cbn; congruence|]. split.
    { cbn. apply only_in_sub with (rr :: opt bk); auto. intros x [<-|Xx]; [now left|]. right. auto. }
    split; [auto|]. intros Q. apply X in Q. destruct (W2 Q) as (-> & Hh). cbn [s_bad s_mem s_fw negb]. split.
    { intros Lv. destruct (ST Lv) as (S1 & S2). rewrite W1; auto. unfold bk, recovery_backup. rewrite S1, S2. destruct (s_bad s); auto. }
    intros rr' Q'. injection Q' as <-. split; [auto|]. split; [now apply fmt_written with (s_mem s) src n|]. split; [auto|discriminate]. }
  destruct H as [(s2 & [] & H1 & H)|(e & H1 & ->)].
  2:{ destruct (P _ _ H1) as (P1 & P2 & P3 & P4 & P5 & _). split; [auto|]. split; [auto|]. split; [auto|].
      split; [rewrite P3; now apply good_same with (s_mem s)|]. split; [auto|]. discriminate. }
  destruct (P _ _ H1) as (P1 & P2 & P3 & P4 & P5 & P6). destruct (P6 eq_refl) as (P7 & P8). clear P P6 H1.
  unfold bind at 1, set_rrev in H.
  assert (GA2: forall rev, rev <= k -> good fmt c (s_mem s2) rev (c_active c)).
  { intros rev Q. apply good_same with (s_mem s); auto. exists i. apply allowed_good in I3. split; [auto|]. split; [tauto|].
    intros k' Q'. assert (k' = k) by congruence. lia. }
  assert (GR2: forall rev rr, rev <= k -> c_recovery c = Some rr -> good fmt c (s_mem s2) rev rr).
  { intros rev rr Q Hr. destruct (P8 rr Hr) as (_ & Y & _). exists i. apply allowed_good in I3. split; [auto|]. split; [tauto|].
    intros k' Q'. assert (k' = k) by congruence. lia. }
  destruct (N.ltb_spec (s_rev s) k) as [Lt|Ge].
  2:{ unfold ret in H. injection H as <- <-. cbn [s_mem s_rev s_bad s_rrev s_applied].
      split; [|split; [auto|split; [auto|split; [rewrite P3; now apply GA2|split; [auto|]]]]].
      - destruct P1 as (Q1 & Q2 & Q3). split; [auto|split; [auto|exact Q3]].
      - intros _. split; [intros k' Q; injection Q as <-; lia|]. split; [discriminate|]. split.
        { intros Q. destruct (c_recovery c) as [rr|]; [|congruence]. now apply (P8 rr). }
        split; [auto|]. intros rr Hr. destruct (P8 rr Hr) as (Y1 & Y2 & Y3 & Y4). split; [intros Q; left; auto|auto]. }
  set (s3 := FState (s_mem s2) (s_fw s2) (s_rev s2) (s_tick s2) (s_bad s2) z (s_upd s2) (s_digest s2) (s_len s2) (s_applied s2)) in *.
  unfold bind, get in H.
  assert (X: (if c_live c then s_fw s3 else Some i) = Some i).
  { destruct (c_live c); [|auto]. cbn. now apply P7. }
  rewrite X in H. apply revoke_spec in H. destruct H as (R1 & R2 & R3 & R4 & R5 & R6 & R7).
  cbn [s3 s_mem s_bad s_rrev s_upd s_applied s_rev] in R1, R2, R3, R4, R5, R6, R7. rewrite P3 in R6, R7.
  assert (RK: s_rev s' = s_rev s \/ s_rev s' = k).
  { destruct R6 as [R6|(i' & k' & Q1 & Q2 & R6)]; [auto|]. right. assert (k' = k) by congruence. lia. }
  assert (RL: s_rev s' <= k) by lia.
  split.
  { split; [rewrite R1; apply P1|]. split; [rewrite R4; apply P1|]. intros rr Hr. rewrite R1, R2. split; intros _; auto. }
  split; [congruence|]. split; [now rewrite R1|]. split; [rewrite R1; auto|]. split.
  { destruct RK as [RK|RK]; [auto|]. right. split; [exists k; auto|]. intros rr Hr.
    destruct (P8 rr Hr) as (Y1 & Y2 & Y3 & Y4). rewrite R1, R2. auto 10. }
  intros ->. specialize (R7 eq_refl i k eq_refl K).
  split; [intros k' Q; injection Q as <-; lia|]. split; [discriminate|]. split.
  { intros Q. rewrite R2. destruct (c_recovery c) as [rr|]; [|congruence]. now apply (P8 rr). }
  split; [auto|]. intros rr Hr. destruct (P8 rr Hr) as (Y1 & Y2 & Y3 & Y4). rewrite R1. split; [intros Q; left; auto|auto].
Qed.

End Keep.
