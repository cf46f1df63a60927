(** Proofs about the flash updater. *)
From Coq Require Import List NArith ZArith Lia Bool Arith ZifyBool ZifyNat ZifyN.
From Verif Require Import Base Flash_Base FlashUtil_Model FlashUtil_Proofs FlashUpdater_Model.
Import ListNotations.
Local Open Scope N_scope.

Section Updater.
Variable rfail efail : N -> bool.
Variable wres : N -> option nat.
Variable blk : N.
Hypothesis Hblk : 0 < blk.

(** The calls a correct client makes: buffers that exist in a 32-bit address space, and offsets that
    stay inside the region. *)
Definition uop_ok (u : updater) (o : uop) : Prop :=
  match o with
  | UWrite d => N.of_nat (length d) + u_off u < 2 ^ 32
  | UApplyOffset off => off <= u_max u
  | _ => True
  end.

Fixpoint uops_ok (u : updater) (m : image) (l : list uop) : Prop :=
  match l with
  | [] => True
  | o :: r => uop_ok u o /\
      (let '(u', m') := uop_step rfail efail wres blk (u, m) o in uops_ok u' m' r)
  end.

Definition inside (b0 n0 : N) (u : updater) : Prop :=
  b0 <= u_base u /\ u_base u + u_max u <= b0 + n0.

Lemma w32_small : forall x, x < 2 ^ 32 -> w32 x = x.
Proof. intros. now apply N.mod_small. Qed.

Lemma erase_and_verify_out : forall m a len,
  let '(m', r) := erase_and_verify rfail efail blk m a len in
  (forall x, (forall y, a <= y < a + N.of_nat len -> y / blk <> x / blk) -> m' x = m x) /\
  (r = FuOk -> blank_on m' a (N.of_nat len)).
Proof.
  clear wres. intros m a len. unfold erase_and_verify.
  pose proof (erase_region_spec efail blk m a len Hblk) as E.
  destruct (erase_region efail blk m a len) as [m' r]. destruct E as (E1 & _ & _ & E4).
  assert (X: r = FuOk -> blank_on m' a (N.of_nat len)).
  { intros R x Hx. apply (E4 R x x); auto. }
  destruct r; try (split; [exact E1|discriminate]). split; auto.
Qed.

Lemma prepare_spec : forall u m t e b0 n0, inside b0 n0 u -> e <= u_max u ->
  let '(u', m', r) := upd_prepare rfail efail blk u m t e in
  inside b0 n0 u' /\
  (forall x, (forall y, b0 <= y < b0 + n0 -> y / blk <> x / blk) -> m' x = m x) /\
  (r = UOk -> t <= u_max u /\ u' = mk_upd (u_base u) (u_max u) (Z.of_N t) 0 /\ blank_on m' (u_base u) e).
Proof.
  clear wres. intros u m t e b0 n0 (H1 & H2) He. unfold upd_prepare.
  destruct (N.ltb_spec (u_max u) t); [repeat split; auto; discriminate|].
  destruct (N.eqb_spec e 0) as [->|Hz].
  - cbn [u_base u_max]. repeat split; auto. intros x Hx. lia.
  - pose proof (erase_and_verify_out m (u_base u) (N.to_nat e)) as E.
    destruct (erase_and_verify rfail efail blk m (u_base u) (N.to_nat e)) as [m' r].
    destruct E as (E1 & E2). rewrite N2Nat.id in *.
    assert (O: forall x, (forall y, b0 <= y < b0 + n0 -> y / blk <> x / blk) -> m' x = m x).
    { intros x Hx. apply E1. intros y Hy. apply Hx. lia. }
    destruct r; (split; [cbn; split; auto|split; [exact O|]]); try discriminate. auto.
Qed.

Lemma write_spec : forall u m d, u_base u + u_max u <= 2 ^ 32 -> u_max u < 2 ^ 32 ->
  N.of_nat (length d) + u_off u < 2 ^ 32 ->
  let '(u', m', r) := upd_write wres u m d in
  u_base u' = u_base u /\ u_max u' = u_max u /\
  (u_size u' + Z.of_N (u_off u') = u_size u + Z.of_N (u_off u))%Z /\
  (forall x, ~ (u_base u + u_off u <= x < u_base u + u_max u) -> m' x = m x) /\
  (r = UOk -> u_off u' = u_off u + N.of_nat (length d) /\ u_off u' <= u_max u /\
     forall x, m' x = nor_write m (u_base u + u_off u) d x) /\
  u_off u <= u_off u' /\
  (r <> UOutOfSpace -> u_off u + N.of_nat (length d) <= u_max u).
Proof.
  clear rfail efail Hblk blk. intros u m d Hb Hm Hl. unfold upd_write.
  rewrite w32_small by lia.
  destruct (N.ltb_spec (u_max u) (u_off u + N.of_nat (length d))) as [L|L].
  - repeat split; auto; try discriminate; try lia. congruence.
  - assert (U: u_base u + u_off u < 2 ^ 32 \/ length d = 0%nat) by lia.
    set (a := w32 (u_base u + u_off u)).
    assert (DW: let '(m', r) := dev_write wres m a d in
        (forall x, ~ (u_base u + u_off u <= x < u_base u + u_max u) -> m' x = m x) /\
        (r = Some (length d) -> forall x, m' x = nor_write m (u_base u + u_off u) d x) /\
        (forall n, r = Some n -> (n <= length d)%nat)).
    { pose proof (dev_write_spec wres m a d) as D. unfold dev_write in *.
      destruct U as [U|U].
      - unfold a in *. rewrite w32_small in * by auto.
        destruct (wres (u_base u + u_off u)) as [n|].
        + destruct D as (D1 & D2). split; [|split].
          * intros x Hx. apply D1. lia.
          * intros E x. now rewrite D2.
          * intros k E. injection E as <-. lia.
        + destruct D as (D1 & D2). repeat split; auto; discriminate.
      - destruct d; [|discriminate]. destruct (wres a) as [n|].
        + rewrite firstn_nil in *. split; [|split].
          * intros x Hx. apply nor_write_out. cbn. lia.
          * intros _ x. rewrite !nor_write_out by (cbn; lia). reflexivity.
          * intros k E. injection E as <-. lia.
        + repeat split; auto; discriminate. }
    destruct (dev_write wres m a d) as [m' r]. destruct DW as (D1 & D2 & D3).
    destruct r as [n|]; [|intuition (try discriminate; try lia)].
    specialize (D3 n eq_refl). cbn [u_base u_max u_size u_off]. rewrite w32_small by lia.
    repeat split; auto; try lia.
    + destruct (Nat.eqb_spec n (length d)) as [->|]; [lia|discriminate].
    + destruct (Nat.eqb_spec n (length d)) as [->|]; [auto|discriminate].
Qed.

Theorem run_inside : forall l u m b0 n0, b0 + n0 < 2 ^ 32 -> inside b0 n0 u -> uops_ok u m l ->
  let '(u', m') := uop_run rfail efail wres blk (u, m) l in
  inside b0 n0 u' /\
  (forall x, (forall y, b0 <= y < b0 + n0 -> y / blk <> x / blk) -> m' x = m x).
Proof.
  induction l as [|o l IH]; intros u m b0 n0 Hb Hin Hok; [cbn; auto|].
  cbn [uops_ok] in Hok. destruct Hok as (Ho & Hok).
  unfold uop_run in *. cbn [fold_left].
  assert (S: let '(u', m') := uop_step rfail efail wres blk (u, m) o in
     inside b0 n0 u' /\ (forall x, (forall y, b0 <= y < b0 + n0 -> y / blk <> x / blk) -> m' x = m x)).
  { destruct Hin as (I1 & I2). destruct o as [t|t|d|off]; cbn [uop_step].
    - unfold prepare_for_update.
      destruct (N.ltb_spec (u_max u) t) as [L|L].
      + unfold upd_prepare. destruct (N.ltb_spec (u_max u) t); [|lia]. cbn. split; auto. split; auto.
      + pose proof (prepare_spec u m t t b0 n0 (conj I1 I2) L) as P.
        destruct (upd_prepare rfail efail blk u m t t) as [[u' m'] r]. cbn [fst]. tauto.
    - unfold prepare_erase_all.
      pose proof (prepare_spec u m t (u_max u) b0 n0 (conj I1 I2) (N.le_refl _)) as P.
      destruct (upd_prepare rfail efail blk u m t (u_max u)) as [[u' m'] r]. cbn [fst]. tauto.
    - cbn [uop_ok] in Ho. pose proof (write_spec u m d ltac:(lia) ltac:(lia) Ho) as W.
      destruct (upd_write wres u m d) as [[u' m'] r]. cbn [fst].
      destruct W as (W1 & W2 & _ & W4 & _). unfold inside. rewrite W1, W2. split; auto.
      intros x Hx. apply W4. intro Q. apply (Hx x); auto. lia.
    - cbn [uop_ok] in Ho. unfold inside, upd_apply_offset. cbn [u_base u_max]. split; auto.
      assert (E: w32 (u_max u + 2 ^ 32 - off) = u_max u - off).
      { unfold w32. replace (u_max u + 2 ^ 32 - off) with (u_max u - off + 1 * 2 ^ 32) by lia.
        rewrite N.mod_add by lia. apply N.mod_small. lia. }
      rewrite E. rewrite w32_small by lia. lia. }
  destruct (uop_step rfail efail wres blk (u, m) o) as [u1 m1]. destruct S as (S1 & S2).
  specialize (IH u1 m1 b0 n0 Hb S1 Hok).
  destruct (fold_left (uop_step rfail efail wres blk) l (u1, m1)) as [u' m'].
  destruct IH as (J1 & J2). split; auto. intros x Hx. rewrite J2 by auto. auto.
Qed.


(** Data written after a successful preparation lands in order without gaps. *)
Lemma write_all_spec : forall ds u m u' m' limit,
  u_base u + u_max u < 2 ^ 32 -> bytes_ok (concat ds) ->
  (forall d, In d ds -> N.of_nat (length d) + u_max u < 2 ^ 32) -> u_off u <= u_max u ->
  blank_on m (u_base u + u_off u) limit -> N.of_nat (length (concat ds)) <= limit ->
  write_all wres u m ds = Some (u', m') ->
  u_off u' = u_off u + N.of_nat (length (concat ds)) /\
  img_read m' (u_base u + u_off u) (length (concat ds)) = concat ds /\
  (forall x, ~ (u_base u + u_off u <= x < u_base u + u_off u + N.of_nat (length (concat ds))) -> m' x = m x) /\
  (u_size u' = u_size u - Z.of_nat (length (concat ds)))%Z.
Proof.
  clear rfail efail Hblk blk. induction ds as [|d ds IH]; intros u m u' m' limit Hb Hby Hd Hoff Hbl Hlim H.
  - cbn in H. injection H as <- <-. cbn. repeat split; auto; lia.
  - cbn [write_all] in H. cbn [concat] in *. rewrite app_length in *.
    pose proof (write_spec u m d ltac:(lia) ltac:(lia)) as W.
    specialize (Hd d (or_introl eq_refl)) as Hd1. specialize (W ltac:(lia)).
    destruct (upd_write wres u m d) as [[u1 m1] r]. destruct r; try discriminate.
    destruct W as (W1 & W2 & W3 & W4 & W5 & W6 & W7). destruct (W5 eq_refl) as (O1 & O2 & O3).
    apply Forall_app in Hby. destruct Hby as (Hby1 & Hby2).
    edestruct (IH u1 m1 u' m' (limit - N.of_nat (length d))) as (J1 & J2 & J3 & J4); eauto.
    + rewrite W1, W2. auto.
    + intros d' Hin. rewrite W2. apply Hd. right. auto.
    + lia.
    + rewrite W1, O1. intros x Hx. rewrite O3. rewrite nor_write_out by lia. apply Hbl. lia.
    + lia.
    + rewrite W1, O1 in *. repeat split; try lia.
      * rewrite img_read_app. f_equal.
        -- transitivity (img_read (nor_write m (u_base u + u_off u) d) (u_base u + u_off u) (length d)).
           ++ apply img_read_ext. intros i Hi. rewrite J3 by lia. apply O3.
           ++ apply img_read_write_blank; auto. eapply blank_on_sub; [exact Hbl| |]; lia.
        -- replace (u_base u + u_off u + N.of_nat (length d)) with (u_base u + (u_off u + N.of_nat (length d))) by lia.
           exact J2.
      * intros x Hx. rewrite J3 by lia. rewrite O3. apply nor_write_out. lia.
Qed.

End Updater.
