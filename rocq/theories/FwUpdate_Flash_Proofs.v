(** Flash effects of the firmware updater's steps. *)
From Coq Require Import List NArith ZArith Lia Bool Arith ZifyBool ZifyNat ZifyN.
From Verif Require Import Base Flash_Base FlashUtil_Model FlashUtil_Proofs FlashUpdater_Model FwUpdate_Model FwUpdate_Spec.
Import ListNotations.
Local Open Scope N_scope.

(** Everything but memory and time is unchanged. *)
Definition quiet (s s' : fst_) : Prop :=
  s_fw s' = s_fw s /\ s_rev s' = s_rev s /\ s_bad s' = s_bad s /\ s_rrev s' = s_rrev s /\ s_upd s' = s_upd s /\
  s_digest s' = s_digest s /\ s_len s' = s_len s /\ s_applied s' = s_applied s.

Lemma quiet_refl : forall s, quiet s s.
Proof. intros. unfold quiet. intuition. Qed.

Lemma quiet_trans : forall a b d, quiet a b -> quiet b d -> quiet a d.
Proof. unfold quiet. intros a b d (A1&A2&A3&A4&A5&A6&A7&A8) (B1&B2&B3&B4&B5&B6&B7&B8). repeat split; congruence. Qed.

(** Bytes outside [a, a+n) do not differ. *)
Definition outside (a n : N) (m m' : image) : Prop := forall x, ~ (a <= x < a + n) -> m' x = m x.

Lemma outside_refl : forall a n m, outside a n m m.
Proof. intros a n m x _. reflexivity. Qed.

Lemma outside_trans : forall a n m1 m2 m3, outside a n m1 m2 -> outside a n m2 m3 -> outside a n m1 m3.
Proof. intros a n m1 m2 m3 A B x H. rewrite (B x H). now apply A. Qed.

Lemma outside_sub : forall a n b k m m', outside b k m m' -> a <= b -> b + k <= a + n -> outside a n m m'.
Proof. intros a n b k m m' H ? ? x Hx. apply H. lia. Qed.

Lemma read_outside : forall a n m m' b k, outside a n m m' -> b + N.of_nat k <= a \/ a + n <= b ->
  img_read m' b k = img_read m b k.
Proof. intros. apply img_read_ext. intros i Hi. apply H. lia. Qed.

Lemma bytes_settle : forall e blk a n m r, bytes_img m -> bytes_img (settle e blk a n m r).
Proof.
  intros e blk a n m r H x. unfold settle. destruct r; [apply H| | | | | | | | |];
  (destruct (e_torn e) as [g|]; [|apply H]; destruct (touched blk a n x); [|apply H]; unfold byte_ok; apply N.mod_lt; discriminate).
Qed.

(** Blocks of a region that starts on a block boundary. *)
Lemma touched_in : forall blk a n size x, 0 < blk -> a mod blk = 0 -> size mod blk = 0 ->
  forall b, a <= b -> b + n <= a + size -> touched blk b n x = true -> a <= x < a + size.
Proof.
  intros blk a n size x Hb Ha Hs b H1 H2 T. unfold touched in T.
  apply andb_prop in T. destruct T as [T T3]. apply andb_prop in T. destruct T as [T1 T2].
  apply N.ltb_lt in T1. apply N.leb_le in T2, T3.
  assert (A: a = blk * (a / blk)) by (apply N.div_exact; lia).
  assert (S: size = blk * (size / blk)) by (apply N.div_exact; lia).
  assert (Q: a / blk <= b / blk) by (apply N.div_le_mono; lia).
  assert (R: (b + n - 1) / blk < a / blk + size / blk).
  { apply N.div_lt_upper_bound; [lia|]. rewrite N.mul_add_distr_l, <- A, <- S. lia. }
  pose proof (N.div_mod x blk ltac:(lia)) as X. pose proof (N.mod_lt x blk ltac:(lia)).
  set (q := x / blk) in *. set (p := a / blk) in *. set (k := size / blk) in *. clearbody q p k.
  split.
  - rewrite A, X. transitivity (blk * q); [apply N.mul_le_mono_l; lia|lia].
  - rewrite X, A, S, <- N.mul_add_distr_l.
    apply N.lt_le_trans with (blk * (q + 1)); [lia|]. apply N.mul_le_mono_l. lia.
Qed.

Lemma same_block_in : forall blk a size b n x, 0 < blk -> a mod blk = 0 -> size mod blk = 0 ->
  a <= b -> b + n <= a + size -> (exists y, b <= y < b + n /\ y / blk = x / blk) -> a <= x < a + size.
Proof.
  intros blk a size b n x Hb Ha Hs H1 H2 (y & Hy & E).
  apply (touched_in blk a n size x Hb Ha Hs b H1 H2). unfold touched.
  rewrite <- E. rewrite !andb_true_iff, !N.leb_le, N.ltb_lt.
  split; [split; [lia|]|]; apply N.div_le_mono; lia.
Qed.

Lemma settle_outside : forall e blk a size b n m m' r, 0 < blk -> a mod blk = 0 -> size mod blk = 0 ->
  a <= b -> b + n <= a + size -> outside a size m m' -> outside a size m (settle e blk b n m' r).
Proof.
  intros e blk a size b n m m' r Hb Ha Hs H1 H2 O x Hx. unfold settle.
  assert (T: touched blk b n x = false).
  { destruct (touched blk b n x) eqn:T; auto. apply (touched_in blk a n size x Hb Ha Hs b H1 H2) in T. contradiction. }
  destruct r; [apply O; auto| | | | | | | | |]; (destruct (e_torn e); [rewrite T|]; apply O; auto).
Qed.

Lemma settle_ok : forall e blk a n m, settle e blk a n m FuOk = m.
Proof. reflexivity. Qed.

Section Flash.
Variable fmt : image -> N -> option fwinfo.
Variable c : fcfg.
Variable oracle : nat -> env.
Hypothesis Hblk : 0 < c_blk c.
Hypothesis Hpage : 0 < c_page c.
Hypothesis Hsize : c_size c mod c_blk c = 0.

Definition region (a : N) : Prop := a mod c_blk c = 0 /\ a + c_size c < 2 ^ 32.

Ltac inv H := injection H as <- <-.

Lemma ev_bytes : forall e m a len, bytes_img m ->
  bytes_img (fst (erase_and_verify (e_read e) (e_erase e) (c_blk c) m a len)).
Proof.
  intros e m a len B. unfold erase_and_verify.
  pose proof (bytes_img_erase_region (e_erase e) (c_blk c) m a len Hblk B) as Q.
  destruct (erase_region (e_erase e) (c_blk c) m a len) as [m' r]. destruct r; exact Q.
Qed.

Lemma erase_spec : forall a b len s s' r, region a -> a <= b -> b + N.of_nat len <= a + c_size c -> bytes_img (s_mem s) ->
  erase c oracle b len s = (s', r) ->
  quiet s s' /\ bytes_img (s_mem s') /\ outside a (c_size c) (s_mem s) (s_mem s') /\
  (r = Ok tt -> blank_on (s_mem s') b (N.of_nat len)).
Proof.
  intros a b len s s' r (Ra & _) H1 H2 B H. unfold erase, bind, ask, get, set_mem, ret, fail in H.
  cbn [s_mem s_fw s_rev s_tick s_bad s_rrev s_upd s_digest s_len s_applied] in H.
  set (e := oracle (s_tick s)) in *.
  destruct (erase_and_verify (e_read e) (e_erase e) (c_blk c) (s_mem s) b len) as [m' x] eqn:E.
  assert (Q: bytes_img m') by (pose proof (ev_bytes e (s_mem s) b len B) as Q; rewrite E in Q; exact Q).
  unfold erase_and_verify in E.
  pose proof (erase_region_spec (e_erase e) (c_blk c) (s_mem s) b len Hblk) as S.
  destruct (erase_region (e_erase e) (c_blk c) (s_mem s) b len) as [m1 x1]. destruct S as (S1 & _ & _ & S4).
  assert (m1 = m') by (destruct x1; congruence). subst m1.
  assert (O: outside a (c_size c) (s_mem s) m').
  { intros z Hz. apply S1. intros y Hy D. apply Hz.
    exact (same_block_in (c_blk c) a (c_size c) b (N.of_nat len) z Hblk Ra Hsize H1 H2 (ex_intro _ y (conj Hy D))). }
  assert (K: x = FuOk -> blank_on m' b (N.of_nat len)).
  { intros ->. assert (x1 = FuOk) as -> by (destruct x1; congruence). intros z Hz. now apply (S4 eq_refl z z). }
  assert (G: s' = fst (set_mem (settle e (c_blk c) b (N.of_nat len) m' x)
     (FState (s_mem s) (s_fw s) (s_rev s) (S (s_tick s)) (s_bad s) (s_rrev s) (s_upd s) (s_digest s) (s_len s) (s_applied s)))
     /\ (r = Ok tt -> x = FuOk)).
  { destruct x; inv H; split; try reflexivity; try discriminate. }
  destruct G as (-> & G). cbn [set_mem fst s_mem]. split; [|split; [|split]].
  - unfold quiet. cbn. intuition.
  - now apply bytes_settle.
  - now apply settle_outside.
  - intros R. rewrite (G R). auto.
Qed.

Lemma copy_bytes : forall rf w m dest src len po page v fuel m0 m' r, bytes_img m ->
  copy_loop rf w fuel (Some m0) m dest src len po page v = (m', r) -> bytes_img m'.
Proof.
  intros rf w m dest src len po page v fuel. revert m dest src len po.
  induction fuel as [|f IH]; intros m dest src len po m0 m' r B H; cbn [copy_loop] in H; [congruence|].
  destruct (len =? 0); [congruence|]. destruct (rf src); [congruence|].
  set (d := img_read (source (Some m0) m) src (N.to_nat (if page - po <? len then page - po else len))) in *.
  assert (W: bytes_img (fst (dev_write w m dest d))).
  { unfold dev_write. destruct (w dest); cbn [fst]; [now apply bytes_img_write|auto]. }
  destruct (dev_write w m dest d) as [m1 [n|]]; cbn [fst] in W; [|congruence].
  destruct (n =? _)%nat; [|congruence].
  destruct v.
  - destruct (check_region _ _ _ _); try congruence. eapply IH; eauto.
  - eapply IH; eauto.
Qed.

Lemma copy_blank_spec : forall dest src len s s' r, bytes_img (s_mem s) ->
  copy_blank c oracle dest src len s = (s', r) ->
  quiet s s' /\ bytes_img (s_mem s') /\ outside dest (N.of_nat len) (s_mem s) (s_mem s') /\
  (r = Ok tt -> img_read (s_mem s') dest len = img_read (s_mem s) src len).
Proof.
  intros dest src len s s' r B H. unfold copy_blank, bind, ask, get, set_mem, ret, fail in H.
  cbn [s_mem s_fw s_rev s_tick s_bad s_rrev s_upd s_digest s_len s_applied] in H.
  set (e := oracle (s_tick s)) in *. set (m := s_mem s) in *.
  assert (SS: forall m' x, copy_region (e_read e) (e_erase e) (e_write e) (Some m) m dest src len false (c_blk c) (c_blk c) (c_page c) true = (m', x) ->
    bytes_img m' /\ outside dest (N.of_nat len) m m' /\ (x = FuOk -> img_read m' dest len = img_read m src len)).
  { intros m' x E. unfold copy_region in E. destruct len as [|k].
    { assert (m' = m) by congruence. subst m'. split; [auto|split; [apply outside_refl|reflexivity]]. }
    destruct (MAX_COPY_BLOCK <? c_page c).
    { assert (m' = m) by congruence. subst m'. split; [auto|split; [apply outside_refl|congruence]]. }
    pose proof (copy_to_blank_spec (e_read e) (e_write e) (Some m) m dest src (S k) (c_page c) true Hpage B ltac:(discriminate)) as C.
    rewrite E in C. destruct C as (C1 & C2). split; [|split; [exact C1|]].
    - unfold copy_to_blank in E. eapply copy_bytes; eauto.
    - intros X. apply img_read_ext. intros i Hi. apply (C2 X); [now left|lia]. }
  destruct (copy_region _ _ _ _ _ _ _ _ _ _ _ _ _) as [m' x]. destruct (SS m' x eq_refl) as (S1 & S2 & S3).
  assert (G: s' = fst (set_mem (settle e 1 dest (N.of_nat len) m' x)
     (FState (s_mem s) (s_fw s) (s_rev s) (S (s_tick s)) (s_bad s) (s_rrev s) (s_upd s) (s_digest s) (s_len s) (s_applied s)))
     /\ (r = Ok tt -> x = FuOk)).
  { destruct x; inv H; split; try reflexivity; try discriminate. }
  destruct G as (-> & G). cbn [set_mem fst s_mem]. split; [|split; [|split]].
  - unfold quiet. cbn. intuition.
  - now apply bytes_settle.
  - apply settle_outside; auto; try lia; apply N.mod_1_r.
  - intros R. rewrite (G R). auto.
Qed.

Lemma copy_over_spec : forall a dest src len s s' r, region a -> a <= dest -> dest + N.of_nat len <= a + c_size c ->
  bytes_img (s_mem s) ->
  copy_over c oracle dest src len s = (s', r) ->
  quiet s s' /\ bytes_img (s_mem s') /\ outside a (c_size c) (s_mem s) (s_mem s') /\
  (r = Ok tt -> img_read (s_mem s') dest len = img_read (s_mem s) src len).
Proof.
  intros a dest src len s s' r (Ra & _) H1 H2 B H. unfold copy_over, bind, ask, get, set_mem, ret, fail in H.
  cbn [s_mem s_fw s_rev s_tick s_bad s_rrev s_upd s_digest s_len s_applied] in H.
  set (e := oracle (s_tick s)) in *. set (m := s_mem s) in *.
  assert (SS: forall m' x, copy_region (e_read e) (e_erase e) (e_write e) (Some m) m dest src len true (c_blk c) (c_blk c) (c_page c) true = (m', x) ->
    bytes_img m' /\ outside a (c_size c) m m' /\ (x = FuOk -> img_read m' dest len = img_read m src len)).
  { intros m' x E. unfold copy_region in E. destruct len as [|k].
    { assert (m' = m) by congruence. subst m'. split; [auto|split; [apply outside_refl|reflexivity]]. }
    unfold erase_and_verify in E.
    pose proof (erase_region_spec (e_erase e) (c_blk c) m dest (S k) Hblk) as Q.
    pose proof (bytes_img_erase_region (e_erase e) (c_blk c) m dest (S k) Hblk B) as QB.
    destruct (erase_region (e_erase e) (c_blk c) m dest (S k)) as [m1 x1]. destruct Q as (Q1 & _ & _ & Q4). cbn [fst] in QB.
    assert (O: outside a (c_size c) m m1).
    { intros z Hz. apply Q1. intros y Hy D. apply Hz.
      exact (same_block_in (c_blk c) a (c_size c) dest (N.of_nat (S k)) z Hblk Ra Hsize H1 H2 (ex_intro _ y (conj Hy D))). }
    assert (T: (m' = m1 /\ x <> FuOk) \/ copy_to_blank (e_read e) (e_write e) (Some m) m1 dest src (S k) (c_page c) true = (m', x)).
    { destruct x1; try (left; split; congruence).
      destruct (blank_check (e_read e) m1 dest (S k)); try (left; split; congruence).
      destruct (MAX_COPY_BLOCK <? c_page c); [left; split; congruence|now right]. }
    destruct T as [(-> & T)|T]; [split; [auto|split; [auto|contradiction]]|].
    pose proof (copy_to_blank_spec (e_read e) (e_write e) (Some m) m1 dest src (S k) (c_page c) true Hpage B ltac:(discriminate)) as C.
    rewrite T in C. destruct C as (C1 & C2). split; [|split].
    - unfold copy_to_blank in T. eapply copy_bytes; eauto.
    - apply outside_trans with m1; auto. apply outside_sub with dest (N.of_nat (S k)); auto.
    - intros X. apply img_read_ext. intros i Hi. apply (C2 X); [now left|lia]. }
  destruct (copy_region _ _ _ _ _ _ _ _ _ _ _ _ _) as [m' x]. destruct (SS m' x eq_refl) as (S1 & S2 & S3).
  assert (G: s' = fst (set_mem (settle e (c_blk c) dest (N.of_nat len) m' x)
     (FState (s_mem s) (s_fw s) (s_rev s) (S (s_tick s)) (s_bad s) (s_rrev s) (s_upd s) (s_digest s) (s_len s) (s_applied s)))
     /\ (r = Ok tt -> x = FuOk)).
  { destruct x; inv H; split; try reflexivity; try discriminate. }
  destruct G as (-> & G). cbn [set_mem fst s_mem]. split; [|split; [|split]].
  - unfold quiet. cbn. intuition.
  - now apply bytes_settle.
  - now apply settle_outside.
  - intros R. rewrite (G R). auto.
Qed.

Lemma res_unit : forall r : res unit, (r = Ok tt) \/ exists e, r = Err e.
Proof. intros [[]|e]; [now left|right; eauto]. Qed.

Lemma bind_cases : forall A B (f : M A) (g : A -> M B) s s' r, bind f g s = (s', r) ->
  (exists s1 a, f s = (s1, Ok a) /\ g a s1 = (s', r)) \/ (exists e, f s = (s', Err e) /\ r = Err e).
Proof.
  intros A B f g s s' r H. unfold bind in H. destruct (f s) as [s1 [a|e]].
  - left. eauto.
  - right. exists e. split; congruence.
Qed.

(** The source does not overlap the destination. *)
Lemma program_spec : forall dest src len s s' r, bytes_img (s_mem s) ->
  dest + N.of_nat len <= src \/ src + N.of_nat len <= dest ->
  program_bootable c oracle dest src len s = (s', r) ->
  quiet s s' /\ bytes_img (s_mem s') /\ outside dest (N.of_nat len) (s_mem s) (s_mem s') /\
  (r = Ok tt -> img_read (s_mem s') dest len = img_read (s_mem s) src len).
Proof.
  intros dest src len s s' r B D H. unfold program_bootable in H.
  destruct (Nat.ltb_spec (N.to_nat (c_page c)) len) as [L|L]; [|now apply copy_blank_spec with (src := src)].
  set (p := N.to_nat (c_page c)) in *. assert (P: N.of_nat p = c_page c) by (unfold p; lia).
  apply bind_cases in H. destruct H as [(s1 & [] & H1 & H2)|(e & H1 & ->)].
  - apply copy_blank_spec in H1; auto. destruct H1 as (Q1 & B1 & O1 & R1). specialize (R1 eq_refl).
    apply copy_blank_spec in H2; auto. destruct H2 as (Q2 & B2 & O2 & R2).
    split; [now apply quiet_trans with s1|]. split; [auto|]. split.
    + apply outside_trans with (s_mem s1).
      * apply outside_sub with (dest + c_page c) (N.of_nat (len - p)); auto; lia.
      * apply outside_sub with dest (N.of_nat p); auto; lia.
    + intros R. specialize (R2 R).
      replace len with (p + (len - p))%nat by lia. rewrite !img_read_app. f_equal.
      * rewrite R2. apply (read_outside (dest + c_page c) (N.of_nat (len - p))); auto. lia.
      * rewrite P. rewrite <- R1. apply (read_outside dest (N.of_nat p)); auto. lia.
  - apply copy_blank_spec in H1; auto. destruct H1 as (Q1 & B1 & O1 & _).
    split; [auto|]. split; [auto|]. split; [|discriminate].
    apply outside_sub with (dest + c_page c) (N.of_nat (len - p)); auto; lia.
Qed.

Lemma finalize_spec : forall a s s' r, bytes_img (s_mem s) -> finalize c oracle a s = (s', r) ->
  quiet s s' /\ bytes_img (s_mem s') /\ outside a (c_off c) (s_mem s) (s_mem s').
Proof.
  intros a s s' r B H. unfold finalize, bind, ask, get, set_mem, ret, fail in H.
  cbn [s_mem s_fw s_rev s_tick s_bad s_rrev s_upd s_digest s_len s_applied] in H.
  set (e := oracle (s_tick s)) in *.
  assert (G: s' = fst (set_mem (match e_torn e with
           | Some g => fun x => if inb x a (c_off c) then g x mod 256 else s_mem s x
           | None => s_mem s end)
     (FState (s_mem s) (s_fw s) (s_rev s) (S (s_tick s)) (s_bad s) (s_rrev s) (s_upd s) (s_digest s) (s_len s) (s_applied s)))).
  { destruct (e_ok e); inv H; reflexivity. }
  subst s'. cbn [set_mem fst s_mem]. split; [unfold quiet; cbn; intuition|]. destruct (e_torn e) as [g|]; split; auto.
  - intros x. destruct (inb x a (c_off c)); [unfold byte_ok; apply N.mod_lt; discriminate|apply B].
  - intros x Hx. destruct (inb x a (c_off c)) eqn:I; auto. apply inb_spec in I. contradiction.
  - apply outside_refl.
Qed.

(** Erasing a region and writing an image there. *)
Lemma place_spec : forall dest src len s s' r, region dest -> bytes_img (s_mem s) ->
  N.of_nat len + c_off c <= c_size c -> apart (c_size c) dest src ->
  (erase c oracle dest (len + N.to_nat (c_off c)) ;;;
   program_bootable c oracle (dest + c_off c) (src + c_off c) len ;;; finalize c oracle dest) s = (s', r) ->
  quiet s s' /\ bytes_img (s_mem s') /\ outside dest (c_size c) (s_mem s) (s_mem s') /\
  (r = Ok tt -> holds c (s_mem s') dest len = holds c (s_mem s) src len).
Proof.
  intros dest src len s s' r R B L A H. unfold holds. unfold apart in A.
  apply bind_cases in H. destruct H as [(s1 & [] & H1 & H2)|(e & H1 & ->)].
  2:{ apply (erase_spec dest) in H1; auto; try lia. destruct H1 as (Q & B1 & O & _). split; [auto|split; [auto|split; [auto|discriminate]]]. }
  apply (erase_spec dest) in H1; auto; try lia. destruct H1 as (Q1 & B1 & O1 & _).
  apply bind_cases in H2. destruct H2 as [(s2 & [] & H2 & H3)|(e & H2 & ->)].
  - apply program_spec in H2; auto; [|lia]. destruct H2 as (Q2 & B2 & O2 & R2). specialize (R2 eq_refl).
    apply finalize_spec in H3; auto. destruct H3 as (Q3 & B3 & O3).
    split; [exact (quiet_trans _ _ _ (quiet_trans _ _ _ Q1 Q2) Q3)|]. split; [auto|]. split.
    + apply outside_trans with (s_mem s1); auto. apply outside_trans with (s_mem s2).
      * apply outside_sub with (dest + c_off c) (N.of_nat len); auto; lia.
      * apply outside_sub with dest (c_off c); auto; lia.
    + intros _. rewrite (read_outside dest (c_off c) (s_mem s2)) by (auto; lia). rewrite R2.
      apply (read_outside dest (c_size c)); auto. lia.
  - apply program_spec in H2; auto; [|lia]. destruct H2 as (Q2 & B2 & O2 & _).
    split; [exact (quiet_trans _ _ _ Q1 Q2)|]. split; [auto|]. split; [|discriminate].
    apply outside_trans with (s_mem s1); auto. apply outside_sub with (dest + c_off c) (N.of_nat len); auto; lia.
Qed.

(** [replace_image] in terms of placing images. *)
Lemma replace_as_place : forall dest src len backup s s' r good,
  replace_image c oracle dest src len backup s = (s', (r, good)) ->
  exists s1 r1,
   (erase c oracle dest (len + N.to_nat (c_off c)) ;;;
    program_bootable c oracle (dest + c_off c) (src + c_off c) len ;;; finalize c oracle dest) s = (s1, r1) /\ r = r1 /\
   ((r1 = Ok tt /\ s' = s1 /\ good = true) \/
    (exists e, r1 = Err e /\
      ((s' = s1 /\ good = false) \/
       exists b n r2, backup = Some (b, n) /\
        (erase c oracle dest (n + N.to_nat (c_off c)) ;;;
         program_bootable c oracle (dest + c_off c) (b + c_off c) n ;;; finalize c oracle dest) s1 = (s', r2) /\
        (good = true -> r2 = Ok tt)))).
Proof.
  intros dest src len backup s s' r good H. unfold replace_image in H.
  unfold bind at 1 in H. unfold ret in H.
  unfold bind at 1. destruct (erase c oracle dest (len + N.to_nat (c_off c)) s) as [s1 [[]|e]].
  - set (P := (program_bootable c oracle (dest + c_off c) (src + c_off c) len ;;; finalize c oracle dest) s1) in *.
    destruct P as [s2 [[]|e]].
    + exists s2, (Ok tt). assert (s' = s2 /\ r = Ok tt /\ good = true) by (repeat split; congruence).
      destruct H0 as (-> & -> & ->). split; [auto|split; [auto|]]. left. auto.
    + exists s2, (Err e). destruct backup as [[b n]|].
      * match type of H with match ?P with _ => _ end = _ => destruct P as [s3 [u|e3]] eqn:E end.
        -- assert (s' = s3 /\ r = Err e /\ good = true) by (repeat split; congruence).
           destruct H0 as (-> & -> & ->). split; [auto|split; [auto|]]. right. exists e. split; [auto|]. right.
           exists b, n, (Ok tt). destruct u. split; [auto|split; [auto|auto]].
        -- assert (s' = s3 /\ r = Err e /\ good = false) by (repeat split; congruence).
           destruct H0 as (-> & -> & ->). split; [auto|split; [auto|]]. right. exists e. split; [auto|]. right.
           exists b, n, (Err e3). split; [auto|split; [auto|discriminate]].
      * assert (s' = s2 /\ r = Err e /\ good = false) by (repeat split; congruence).
        destruct H0 as (-> & -> & ->). split; [auto|split; [auto|]]. right. exists e. split; [auto|]. left. auto.
  - exists s1, (Err e). assert (s' = s1 /\ r = Err e /\ good = false) by (repeat split; congruence).
    destruct H0 as (-> & -> & ->). split; [auto|split; [auto|]]. right. exists e. split; [auto|]. left. auto.
Qed.

Lemma call_spec : forall x s s' r, call oracle x s = (s', r) -> quiet s s' /\ s_mem s' = s_mem s /\ (r = Ok tt \/ r = Err x).
Proof.
  intros x s s' r H. unfold call, bind, ask, ret, fail in H.
  destruct (e_ok (oracle (s_tick s))); inv H; unfold quiet; cbn; intuition.
Qed.

Lemma query_spec : forall s s' r, query_page c oracle s = (s', r) ->
  quiet s s' /\ s_mem s' = s_mem s /\ (r = Ok tt \/ r = Err EPage) /\ (c_page_fails c = false -> r = Ok tt).
Proof.
  intros s s' r H. unfold query_page in H. destruct (c_page_fails c).
  - apply call_spec in H. destruct H as (A & B & C). split; [auto|split; [auto|split; [auto|discriminate]]].
  - unfold ret in H. inv H. split; [apply quiet_refl|auto].
Qed.

(** Only the loaded image, memory and time may differ. *)
Definition calm (s s' : fst_) : Prop :=
  s_rev s' = s_rev s /\ s_bad s' = s_bad s /\ s_rrev s' = s_rrev s /\ s_upd s' = s_upd s /\
  s_digest s' = s_digest s /\ s_len s' = s_len s /\ s_applied s' = s_applied s.

Lemma quiet_calm : forall s s', quiet s s' -> calm s s'.
Proof. unfold quiet, calm. tauto. Qed.

Lemma calm_refl : forall s, calm s s.
Proof. intros. apply quiet_calm, quiet_refl. Qed.

Lemma calm_trans : forall a b d, calm a b -> calm b d -> calm a d.
Proof. unfold calm. intros a b d (A2&A3&A4&A5&A6&A7&A8) (B2&B3&B4&B5&B6&B7&B8). repeat split; congruence. Qed.

Lemma load_spec : forall a s s' r, load fmt oracle a s = (s', r) ->
  calm s s' /\ s_mem s' = s_mem s /\
  (r = Ok tt -> exists i, fmt (s_mem s) a = Some i /\ s_fw s' = Some i).
Proof.
  intros a s s' r H. unfold load, bind, ask, get, set_fw, fail in H.
  cbn [s_mem s_fw s_rev s_tick s_bad s_rrev s_upd s_digest s_len s_applied] in H.
  destruct (e_ok (oracle (s_tick s))).
  - destruct (fmt (s_mem s) a) as [i|]; inv H; (split; [unfold calm; cbn; intuition|split; [reflexivity|]]).
    + intros _. eauto.
    + discriminate.
  - inv H; (split; [unfold calm; cbn; intuition|split; [reflexivity|discriminate]]).
Qed.

Lemma size_spec : forall s s' r, image_size oracle s = (s', r) ->
  quiet s s' /\ s_mem s' = s_mem s /\
  (forall n, r = Ok n -> exists i, s_fw s = Some i /\ i_size i = Some n).
Proof.
  intros s s' r H. unfold image_size, bind, ask, get, ret, fail in H.
  cbn [s_mem s_fw s_rev s_tick s_bad s_rrev s_upd s_digest s_len s_applied] in H.
  destruct (s_fw s) as [i|] eqn:F.
  - destruct (i_size i) as [k|] eqn:K.
    + destruct (e_ok _); inv H; (split; [unfold quiet; cbn; intuition|split; [reflexivity|]]); intros n E; [|discriminate].
      injection E as <-. eauto.
    + inv H; (split; [unfold quiet; cbn; intuition|split; [reflexivity|]]); discriminate.
  - inv H; (split; [unfold quiet; cbn; intuition|split; [reflexivity|]]); discriminate.
Qed.

(** What writing an image does: the backup region [b] is apart from the others. *)
Lemma write_image_spec : forall dest backup src len s s' r good, 
  image_format fmt (c_size c - c_off c) -> c_off c <= c_size c ->
  region dest -> bytes_img (s_mem s) -> N.of_nat len + c_off c <= c_size c -> apart (c_size c) dest src ->
  (forall b, backup = Some b -> region b /\ apart (c_size c) b dest /\ apart (c_size c) b src) ->
  write_image fmt c oracle dest backup src len s = (s', (r, good)) ->
  calm s s' /\ bytes_img (s_mem s') /\ only_in (c_size c) (dest :: opt backup) (s_mem s) (s_mem s') /\
  (backup = None -> s_fw s' = s_fw s) /\
  (r = Ok tt -> good = true /\ holds c (s_mem s') dest len = holds c (s_mem s) src len) /\
  ((exists e, r = Err e) -> good = true -> forall i n, fmt (s_mem s) (dest + c_off c) = Some i -> i_size i = Some n ->
     holds c (s_mem s') dest n = holds c (s_mem s) dest n) /\
  (* the backup holds the old image once the region has been touched *)
  (forall b, backup = Some b -> (forall x, dest <= x < dest + c_size c -> s_mem s' x = s_mem s x) \/
     forall i n, fmt (s_mem s) (dest + c_off c) = Some i -> i_size i = Some n ->
     holds c (s_mem s') b n = holds c (s_mem s) dest n) /\
  ((exists e, r = Err e) -> good = true -> backup = None -> forall x, s_mem s' x = s_mem s x).
Proof.
  intros dest backup src len s s' r good (F1 & F2 & F3) Ho R B L A Hb H. unfold write_image in H.
  assert (Z: forall m, only_in (c_size c) (dest :: opt backup) m m) by (intros m x _; reflexivity).
  assert (OD: forall m m', outside dest (c_size c) m m' -> only_in (c_size c) (dest :: opt backup) m m').
  { intros m m' O x Hx. apply O. apply Hx. now left. }
  assert (OB: forall b m m', backup = Some b -> outside b (c_size c) m m' -> only_in (c_size c) (dest :: opt backup) m m').
  { intros b m m' -> O x Hx. apply O. apply Hx. right. now left. }
  assert (OT: forall m1 m2 m3, only_in (c_size c) (dest :: opt backup) m1 m2 -> only_in (c_size c) (dest :: opt backup) m2 m3 ->
     only_in (c_size c) (dest :: opt backup) m1 m3).
  { intros m1 m2 m3 X Y x Hx. rewrite Y by auto. now apply X. }
  (* the backup *)
  set (P := match backup with
         | None => ret 0%nat
         | Some b =>
           load fmt oracle (dest + c_off c) ;;;
           n <- image_size oracle ;;
           copy_over c oracle (b + c_off c) (dest + c_off c) n ;;;
           ret n
         end) in *.
  assert (PB: forall s1 q, P s = (s1, q) ->
    calm s s1 /\ bytes_img (s_mem s1) /\ only_in (c_size c) (dest :: opt backup) (s_mem s) (s_mem s1) /\
    (forall x, dest <= x < dest + c_size c -> s_mem s1 x = s_mem s x) /\
    (backup = None -> s1 = s) /\
    (forall b, backup = Some b -> outside b (c_size c) (s_mem s) (s_mem s1)) /\
    (forall n b, q = Ok n -> backup = Some b -> N.of_nat n + c_off c <= c_size c /\
       exists i, fmt (s_mem s) (dest + c_off c) = Some i /\ i_size i = Some n /\ holds c (s_mem s1) b n = holds c (s_mem s) dest n)).
  { intros s1 q E. unfold P in E. destruct backup as [b|].
    2:{ unfold ret in E. injection E as <- <-. split; [apply calm_refl|]. split; [auto|]. split; [auto|]. split; [auto|]. split; [auto|]. split; congruence. }
    destruct (Hb b eq_refl) as (Rb & A1 & A2).
    assert (K: forall n, (calm s s1 /\ bytes_img (s_mem s1) /\ outside b (c_size c) (s_mem s) (s_mem s1) /\
       (q = Ok n -> N.of_nat n + c_off c <= c_size c /\
         exists i, fmt (s_mem s) (dest + c_off c) = Some i /\ i_size i = Some n /\ holds c (s_mem s1) b n = holds c (s_mem s) dest n))).
    { intros n. apply bind_cases in E. destruct E as [(s2 & [] & E1 & E2)|(e & E1 & ->)].
      2:{ apply load_spec in E1. destruct E1 as (C1 & M1 & _). rewrite M1. split; [auto|split; [auto|split; [apply outside_refl|discriminate]]]. }
      apply load_spec in E1. destruct E1 as (C1 & M1 & I1). destruct (I1 eq_refl) as (i & I2 & I3). clear I1.
      apply bind_cases in E2. destruct E2 as [(s3 & k & E2 & E3)|(e & E2 & ->)].
      2:{ apply size_spec in E2. destruct E2 as (C2 & M2 & _). rewrite M2, M1. apply quiet_calm in C2.
          split; [exact (calm_trans _ _ _ C1 C2)|]. split; [auto|]. split; [apply outside_refl|discriminate]. }
      apply size_spec in E2. destruct E2 as (C2 & M2 & I4). destruct (I4 k eq_refl) as (i' & I5 & I6). clear I4.
      assert (i' = i) by congruence. subst i'. apply quiet_calm in C2.
      pose proof (F3 _ _ _ _ I2 I6) as Lk.
      apply bind_cases in E3. destruct E3 as [(s4 & [] & E3 & E4)|(e & E3 & ->)].
      - unfold ret in E4. injection E4 as <- <-.
        apply (copy_over_spec b) in E3; auto; try lia; [|now rewrite M2, M1].
        destruct E3 as (C3 & B3 & O3 & R3). specialize (R3 eq_refl). apply quiet_calm in C3. rewrite M2, M1 in *.
        split; [exact (calm_trans _ _ _ (calm_trans _ _ _ C1 C2) C3)|]. split; [auto|]. split; [auto|].
        intros Q. injection Q as ->. split; [lia|]. exists i. unfold holds. auto.
      - apply (copy_over_spec b) in E3; auto; try lia; [|now rewrite M2, M1].
        destruct E3 as (C3 & B3 & O3 & _). apply quiet_calm in C3. rewrite M2, M1 in *.
        split; [exact (calm_trans _ _ _ (calm_trans _ _ _ C1 C2) C3)|]. split; [auto|]. split; [auto|discriminate]. }
    destruct (K 0%nat) as (K1 & K2 & K3 & _). split; [auto|]. split; [auto|]. split; [now apply (OB b)|].
    split.
    { intros x Hx. apply K3. unfold apart in A1. lia. }
    split; [discriminate|]. split; [intros b' Q; injection Q as <-; auto|].
    intros n b' Q E'. injection E' as <-. destruct (K n) as (_ & _ & _ & K4). now apply K4. }
  clearbody P. destruct (P s) as [s1 [blen|e]].
  2:{ destruct (PB s1 _ eq_refl) as (C1 & B1 & O1 & D1 & N1 & N2 & _).
      assert (s' = s1 /\ r = Err e /\ good = true) by (repeat split; congruence). destruct H0 as (-> & -> & ->).
      split; [auto|]. split; [auto|]. split; [auto|]. split; [intros Q; now rewrite (N1 Q)|]. split; [discriminate|].
      split; [|split].
      - intros _ _ i n I1 I2. unfold holds. apply img_read_ext. intros k Hk. apply D1.
        pose proof (F3 _ _ _ _ I1 I2). lia.
      - intros b Q. left. auto.
      - intros _ _ Q x. now rewrite (N1 Q). }
  destruct (PB s1 _ eq_refl) as (C1 & B1 & O1 & D1 & N1 & N2 & K1). clear PB.
  destruct (query_page c oracle s1) as [s2 q] eqn:E2. apply query_spec in E2. destruct E2 as (C2 & M2 & Q2 & _).
  pose proof (quiet_calm _ _ C2) as C2'. pose proof (calm_trans _ _ _ C1 C2') as C12.
  destruct Q2 as [-> | ->].
  2:{ assert (s' = s2 /\ r = Err EPage /\ good = true) by (repeat split; congruence). destruct H0 as (-> & -> & ->).
      split; [auto|]. rewrite M2. split; [auto|]. split; [auto|].
      split; [intros Q; rewrite (proj1 C2), (N1 Q); reflexivity|]. split; [discriminate|].
      split; [|split].
      - intros _ _ i n I1 I2. unfold holds. apply img_read_ext. intros k Hk. apply D1.
        pose proof (F3 _ _ _ _ I1 I2). lia.
      - intros b Q. left. auto.
      - intros _ _ Q x. now rewrite (N1 Q). }
  apply replace_as_place in H. destruct H as (s3 & r1 & P3 & -> & H).
  apply place_spec in P3; auto; [|now rewrite M2]. destruct P3 as (C3 & B3 & O3 & R3).
  assert (SRC: forall b n, backup = Some b \/ backup = None -> N.of_nat n + c_off c <= c_size c -> holds c (s_mem s2) src n = holds c (s_mem s) src n).
  { intros b n Q Hn. unfold holds. rewrite M2. destruct Q as [Q|Q]; [|now rewrite (N1 Q)].
    apply (read_outside b (c_size c)); auto. destruct (Hb b Q) as (_ & _ & X). unfold apart in X. lia. }
  assert (SRC': forall n, N.of_nat n + c_off c <= c_size c -> holds c (s_mem s2) src n = holds c (s_mem s) src n).
  { intros n Hn. destruct backup as [b|]; [apply (SRC b)|apply (SRC 0)]; auto. }
  clear SRC. pose proof (quiet_calm _ _ C3) as C3'. pose proof (calm_trans _ _ _ C12 C3') as C123.
  assert (O123: only_in (c_size c) (dest :: opt backup) (s_mem s) (s_mem s3)).
  { apply OT with (s_mem s1); auto. rewrite <- M2. now apply OD. }
  assert (BK: forall b m, backup = Some b -> outside dest (c_size c) (s_mem s2) m ->
     forall i n, fmt (s_mem s) (dest + c_off c) = Some i -> i_size i = Some n -> holds c m b n = holds c (s_mem s) dest n).
  { intros b m Q O i n I1 I2. destruct (K1 blen b eq_refl Q) as (Lb & i' & I3 & I4 & I5).
    assert (i' = i) by congruence. subst i'. assert (blen = n) by congruence. subst blen.
    rewrite <- I5. unfold holds. rewrite <- M2. apply (read_outside dest (c_size c)); auto.
    destruct (Hb b Q) as (_ & X & _). unfold apart in X. lia. }
  assert (FW: backup = None -> quiet s2 s3 -> s_fw s3 = s_fw s).
  { intros Q C. rewrite (proj1 C), (proj1 C2), (N1 Q). reflexivity. }
  destruct H as [(-> & -> & ->)|(e & -> & [(-> & ->)|(b & n & r2 & Q & H & Hg)])].
  - split; [auto|]. split; [auto|]. split; [auto|]. split; [intros Q; now apply FW|].
    split; [|split; [|split]].
    + intros _. split; auto. rewrite (R3 eq_refl). now apply SRC'.
    + intros (e & X). discriminate.
    + intros b Q. right. now apply BK.
    + intros (e & X). discriminate.
  - split; [auto|]. split; [auto|]. split; [auto|]. split; [intros Q; now apply FW|].
    split; [discriminate|]. split; [discriminate|]. split; [|discriminate].
    intros b Q. right. now apply BK.
  - assert (backup = Some b /\ n = blen) as (Qb & ->) by (destruct backup; [split; congruence|discriminate]).
    destruct (Hb b Qb) as (Rb & A1 & A2). destruct (K1 blen b eq_refl Qb) as (Lb & i & I1 & I2 & I3).
    apply place_spec in H; auto; [|unfold apart in *; lia]. destruct H as (C4 & B4 & O4 & R4).
    pose proof (quiet_calm _ _ C4) as C4'.
    split; [exact (calm_trans _ _ _ C123 C4')|]. split; [auto|].
    split; [apply OT with (s_mem s3); auto|]. split; [intros X; congruence|]. split; [discriminate|].
    split; [|split].
    + intros _ G i' n' I1' I2'. assert (i' = i) by congruence. subst i'. assert (n' = blen) by congruence. subst n'.
      rewrite (R4 (Hg G)). apply (BK b (s_mem s3) Qb O3 i blen I1 I2).
    + intros b' Q'. assert (b' = b) by congruence. subst b'. right. apply BK; auto.
      apply outside_trans with (s_mem s3); auto.
    + intros _ _ X. congruence.
Qed.

End Flash.
